(** C72: what nc_send_rpc() sends says exactly what the caller asked for. *)
From Coq Require Import String Ascii NArith Bool List Lia.
From Verif Require Import Bytes IoSafety RpcSend.
Import ListNotations.
Local Open Scope string_scope.
Local Open Scope list_scope.

(* ------------------------------------------------------------------ *)
(** ** Requests as their receiver understands them *)

Inductive flt := FSubtree (x : string) | FXPath (x : string) | FName (x : string).
(** Where a configuration is: a datastore, at a URL, or in the message. *)
Inductive place := InStore (name : string) | AtUrl (u : string) | Inline (x : string).
Inductive push := EveryPeriod (p : N) (anchor : option string) | WhenChanged (damp : option N) (sync : option bool) (excl : list string).
Inductive req :=
| RGetConfig (from : place) (f : option flt) (w : option string)
| REdit (into : place) (d t e : option string) (c : place)
| RCopy (into from : place) (w : option string)
| RDelete (what : place)
| RLock (what : place)
| RUnlock (what : place)
| RGet (f : option flt) (w : option string)
| RKill (sid : N)
| RCommit (confirmed : bool) (timeout : option N) (persist persist_id : option string)
| RDiscard
| RCancel (persist_id : option string)
| RValidate (what : place)
| RGetSchema (ident : string) (version format : option string)
| RSubscribe (stream : option string) (f : option flt) (start stop : option string)
| RGetData (store : string) (f : option flt) (cf : option string) (origins not_origins : list string) (depth : option N) (worigin : bool) (w : option string)
| REditData (store : string) (d : option string) (c : place)
| REstablish (f : option flt) (stream : string) (start stop enc : option string)
| RModify (id : N) (f : option flt) (stop : option string)
| RDeleteSub (id : N)
| RKillSub (id : N)
| REstablishPush (store : string) (f : option flt) (stop enc : option string) (p : push)
| RModifyPush (id : N) (store : string) (f : option flt) (stop : option string) (p : push)
| RResync (id : N).

(* ------------------------------------------------------------------ *)
(** ** What a caller asks for, by messages_client.h *)

Definition opt_map {A B} (f : A -> B) (o : option A) : option B := match o with Some x => Some (f x) | None => None end.
Definition starts (c : ascii) (x : string) : bool := match x with String d _ => Ascii.eqb d c | EmptyString => false end.
(** "an XML subtree or XPath expression" *)
Definition a_filter (x : string) : flt := if String.eqb x "" || starts "<"%char x then FSubtree x else FXPath x.
(** "an XML subtree, XPath expression, or filter reference" *)
Definition a_filter3 (x : string) : flt :=
  if String.eqb x "" || starts "<"%char x then FSubtree x else if starts "/"%char x then FXPath x else FName x.
(** "Config or URL" *)
Definition a_content (x : string) : place := if String.eqb x "" || starts "<"%char x then Inline x else AtUrl x.
Definition a_store (d : ds) : place :=
  match d with DsRunning => InStore "running" | DsStartup => InStore "startup" | DsCandidate => InStore "candidate" | DsConfig => InStore "config" | DsUrl => AtUrl "" end.
Definition a_wd (w : wd) : option string :=
  match w with WdUnknown => None | WdAll => Some "report-all" | WdAllTag => Some "report-all-tagged" | WdTrim => Some "trim" | WdExplicit => Some "explicit" end.
Definition a_dflt (d : dfltop) : option string := match d with DoUnknown => None | DoMerge => Some "merge" | DoReplace => Some "replace" | DoNone => Some "none" end.
Definition a_test (d : testopt) : option string := match d with ToUnknown => None | ToTestset => Some "test-then-set" | ToSet => Some "set" | ToTest => Some "test-only" end.
Definition a_err (d : erropt) : option string :=
  match d with EoUnknown => None | EoStop => Some "stop-on-error" | EoContinue => Some "continue-on-error" | EoRollback => Some "rollback-on-error" end.
Definition a_num (n : N) : option N := if N.eqb n 0 then None else Some n.
(** "Used instead target if the target is an URL" *)
Definition a_target (d : ds) (url : option string) : place := match url with Some u => AtUrl u | None => a_store d end.
Definition a_source (d : ds) (c : option string) : place := match c with Some x => a_content x | None => a_store d end.

Definition asked (r : rpc) : req :=
  match r with
  | GetConfig s f w => RGetConfig (a_store s) (opt_map a_filter f) (a_wd w)
  | Edit t d o e c => REdit (a_store t) (a_dflt d) (a_test o) (a_err e) (a_content c)
  | Copy t u s c w => RCopy (a_target t u) (a_source s c) (a_wd w)
  | Delete t u => RDelete (a_target t u)
  | Lock t => RLock (a_store t)
  | Unlock t => RUnlock (a_store t)
  | Get f w => RGet (opt_map a_filter f) (a_wd w)
  | Kill n => RKill n
  | Commit c t p i => RCommit c (a_num t) p i
  | Discard => RDiscard
  | Cancel i => RCancel i
  | Validate s c => RValidate (a_source s c)
  | GetSchema i v f => RGetSchema i v f
  | Subscribe s f a b => RSubscribe s (opt_map a_filter f) a b
  | GetData s f cf os neg dp wo w =>
    RGetData s (opt_map a_filter f) cf (if neg then [] else os) (if neg then os else []) (a_num dp) wo (a_wd w)
  | EditData s d c => REditData s (a_dflt d) (a_content c)
  | EstSub f s a b e => REstablish (opt_map a_filter3 f) s a b e
  | ModSub i f b => RModify i (opt_map a_filter3 f) b
  | DelSub i => RDeleteSub i
  | KillSub i => RKillSub i
  | EstPush s f b e t =>
    REstablishPush s (opt_map a_filter3 f) b e
      (match t with Periodic p a => EveryPeriod p a | OnChange d y x => WhenChanged (a_num d) (Some y) x end)
  | ModPush i s f b t =>
    RModifyPush i s (opt_map a_filter3 f) b
      (match t with MPeriodic p a => EveryPeriod p a | MOnChange d => WhenChanged (a_num d) None [] end)
  | Resync i => RResync i
  end.

(* ------------------------------------------------------------------ *)
(** ** Reading a tree: RFC 6241, 6022, 5277, 8526, 8639, 8641 *)

Definition nmod (x : node) := match x with Leaf m _ _ | AnyN m _ _ _ | Inner m _ _ => m end.
Definition nname (x : node) := match x with Leaf _ n _ | AnyN _ n _ _ | Inner _ n _ => n end.
Definition named (m n : string) (x : node) : bool := String.eqb (nmod x) m && String.eqb (nname x) n.
Definition kids (ch : list node) (m n : string) : list node := filter (named m n) ch.
Definition bind {A B} (o : option A) (f : A -> option B) : option B := match o with Some x => f x | None => None end.
Notation "'let*' x ':=' a 'in' b" := (bind a (fun x => b)) (at level 200, x pattern, a at level 100, b at level 200).

(** No child but those of the operation. *)
Definition only (ch : list node) (l : list (string * string)) : option unit :=
  if forallb (fun x => existsb (fun p => named (fst p) (snd p) x) l) ch then Some tt else None.
Definition txt (ch : list node) (m n : string) : option (option string) :=
  match kids ch m n with [] => Some None | [Leaf _ _ v] => Some (Some v) | _ => None end.
Definition must {A} (o : option (option A)) : option A := bind o (fun x => x).
Definition flag (ch : list node) (m n : string) : option bool :=
  match kids ch m n with [] => Some false | [Leaf _ _ ""] => Some true | _ => None end.
Definition value (s : string) : option N :=
  match list_ascii_of_string s with [] => None | l => if forallb is_digit l then Some (digits_val 0 l) else None end.
Definition number (ch : list node) (m n : string) : option (option N) :=
  let* t := txt ch m n in match t with None => Some None | Some s => let* v := value s in Some (Some v) end.
Definition truth (ch : list node) (m n : string) : option (option bool) :=
  let* t := txt ch m n in
  match t with None => Some None | Some s => if String.eqb s "true" then Some (Some true) else if String.eqb s "false" then Some (Some false) else None end.
Fixpoint leaves (l : list node) : option (list string) :=
  match l with [] => Some [] | Leaf _ _ v :: r => let* vs := leaves r in Some (v :: vs) | _ => None end.
Definition texts (ch : list node) (m n : string) : option (list string) := leaves (kids ch m n).
Definition xml (ch : list node) (m n : string) : option (option string) :=
  match kids ch m n with [] => Some None | [AnyN _ _ (Some x) []] => Some (Some x) | _ => None end.
Definition inside (ch : list node) (m n : string) : option (option (list node)) :=
  match kids ch m n with [] => Some None | [Inner _ _ c] => Some (Some c) | _ => None end.

(** RFC 6241 section 6.4 and 8.9: the element "filter" with its attributes. *)
Definition attr (a : string) (l : list (string * string)) : option string :=
  opt_map snd (find (fun p => String.eqb (fst p) a) l).
Definition rd_filter (ch : list node) (m : string) : option (option flt) :=
  match kids ch m "filter" with
  | [] => Some None
  | [AnyN _ _ v l] =>
    let* ty := attr "ietf-netconf:type" l in
    if String.eqb ty "subtree" then let* x := v in Some (Some (FSubtree x))
    else if String.eqb ty "xpath" then let* x := attr "ietf-netconf:select" l in Some (Some (FXPath x)) else None
  | _ => None
  end.
(** One of up to three alternatives. *)
Definition rd_choice (a : option (option string)) (fa : string -> flt) (b : option (option string)) (fb : string -> flt)
    (c : option (option string)) (fc : string -> flt) : option (option flt) :=
  let* x := a in let* y := b in let* z := c in
  match x, y, z with
  | None, None, None => Some None
  | Some x, None, None => Some (Some (fa x))
  | None, Some y, None => Some (Some (fb y))
  | None, None, Some z => Some (Some (fc z))
  | _, _, _ => None
  end.
(** A container with one child: a datastore, a URL or a configuration. *)
Definition rd_one (m : string) (l : list node) : option place :=
  match l with
  | [Leaf m' n v] => if negb (String.eqb m' m) then None
                     else if String.eqb n "url" then Some (AtUrl v) else if String.eqb v "" then Some (InStore n) else None
  | [AnyN m' n (Some x) []] => if String.eqb m' m && String.eqb n "config" then Some (Inline x) else None
  | _ => None
  end.
Definition rd_place (ch : list node) (m n : string) : option place := let* c := must (inside ch m n) in rd_one m c.
Definition rd_content (ch : list node) (m : string) : option place := rd_one m (kids ch m "config" ++ kids ch m "url").
Definition rd_push (ch : list node) : option push :=
  let* p := inside ch yp "periodic" in
  let* c := inside ch yp "on-change" in
  match p, c with
  | Some p, None =>
    let* _ := only p [(yp, "period"); (yp, "anchor-time")] in
    let* n := must (number p yp "period") in let* a := txt p yp "anchor-time" in Some (EveryPeriod n a)
  | None, Some c =>
    let* _ := only c [(yp, "dampening-period"); (yp, "sync-on-start"); (yp, "excluded-change")] in
    let* d := number c yp "dampening-period" in let* y := truth c yp "sync-on-start" in let* x := texts c yp "excluded-change" in
    Some (WhenChanged d y x)
  | _, _ => None
  end.
Definition rd_sub_filter (ch : list node) : option (option flt) :=
  rd_choice (xml ch sn "stream-subtree-filter") FSubtree (txt ch sn "stream-xpath-filter") FXPath (txt ch sn "stream-filter-name") FName.
Definition rd_push_filter (ch : list node) : option (option flt) :=
  rd_choice (xml ch yp "datastore-subtree-filter") FSubtree (txt ch yp "datastore-xpath-filter") FXPath (txt ch yp "selection-filter-ref") FName.

Definition is_op (t : node) (m n : string) : bool := match t with Inner m' n' _ => String.eqb m' m && String.eqb n' n | _ => false end.
Definition says (t : node) : option req :=
  let ch := match t with Inner _ _ c => c | _ => [] end in
  if is_op t nc "get-config" then
    let* _ := only ch [(nc, "source"); (nc, "filter"); (ncwd, "with-defaults")] in
    let* s := rd_place ch nc "source" in let* f := rd_filter ch nc in let* w := txt ch ncwd "with-defaults" in Some (RGetConfig s f w)
  else if is_op t nc "edit-config" then
    let* _ := only ch [(nc, "target"); (nc, "default-operation"); (nc, "test-option"); (nc, "error-option"); (nc, "config"); (nc, "url")] in
    let* s := rd_place ch nc "target" in let* d := txt ch nc "default-operation" in let* o := txt ch nc "test-option" in
    let* e := txt ch nc "error-option" in let* c := rd_content ch nc in Some (REdit s d o e c)
  else if is_op t nc "copy-config" then
    let* _ := only ch [(nc, "target"); (nc, "source"); (ncwd, "with-defaults")] in
    let* s := rd_place ch nc "target" in let* c := rd_place ch nc "source" in let* w := txt ch ncwd "with-defaults" in Some (RCopy s c w)
  else if is_op t nc "delete-config" then let* _ := only ch [(nc, "target")] in let* s := rd_place ch nc "target" in Some (RDelete s)
  else if is_op t nc "lock" then let* _ := only ch [(nc, "target")] in let* s := rd_place ch nc "target" in Some (RLock s)
  else if is_op t nc "unlock" then let* _ := only ch [(nc, "target")] in let* s := rd_place ch nc "target" in Some (RUnlock s)
  else if is_op t nc "get" then
    let* _ := only ch [(nc, "filter"); (ncwd, "with-defaults")] in
    let* f := rd_filter ch nc in let* w := txt ch ncwd "with-defaults" in Some (RGet f w)
  else if is_op t nc "kill-session" then let* _ := only ch [(nc, "session-id")] in let* n := must (number ch nc "session-id") in Some (RKill n)
  else if is_op t nc "commit" then
    let* _ := only ch [(nc, "confirmed"); (nc, "confirm-timeout"); (nc, "persist"); (nc, "persist-id")] in
    let* c := flag ch nc "confirmed" in let* n := number ch nc "confirm-timeout" in let* p := txt ch nc "persist" in
    let* i := txt ch nc "persist-id" in Some (RCommit c n p i)
  else if is_op t nc "discard-changes" then let* _ := only ch [] in Some RDiscard
  else if is_op t nc "cancel-commit" then let* _ := only ch [(nc, "persist-id")] in let* i := txt ch nc "persist-id" in Some (RCancel i)
  else if is_op t nc "validate" then let* _ := only ch [(nc, "source")] in let* s := rd_place ch nc "source" in Some (RValidate s)
  else if is_op t ncm "get-schema" then
    let* _ := only ch [(ncm, "identifier"); (ncm, "version"); (ncm, "format")] in
    let* i := must (txt ch ncm "identifier") in let* v := txt ch ncm "version" in let* f := txt ch ncm "format" in Some (RGetSchema i v f)
  else if is_op t ntf "create-subscription" then
    let* _ := only ch [(ntf, "stream"); (ntf, "filter"); (ntf, "startTime"); (ntf, "stopTime")] in
    let* s := txt ch ntf "stream" in let* f := rd_filter ch ntf in let* a := txt ch ntf "startTime" in let* b := txt ch ntf "stopTime" in
    Some (RSubscribe s f a b)
  else if is_op t nmda "get-data" then
    let* _ := only ch [(nmda, "datastore"); (nmda, "subtree-filter"); (nmda, "xpath-filter"); (nmda, "config-filter"); (nmda, "origin-filter");
                       (nmda, "negated-origin-filter"); (nmda, "max-depth"); (nmda, "with-origin"); (nmda, "with-defaults")] in
    let* s := must (txt ch nmda "datastore") in
    let* f := rd_choice (xml ch nmda "subtree-filter") FSubtree (txt ch nmda "xpath-filter") FXPath (Some None) FName in
    let* cf := txt ch nmda "config-filter" in let* o := texts ch nmda "origin-filter" in let* no := texts ch nmda "negated-origin-filter" in
    let* d := number ch nmda "max-depth" in let* wo := flag ch nmda "with-origin" in let* w := txt ch nmda "with-defaults" in
    Some (RGetData s f cf o no d wo w)
  else if is_op t nmda "edit-data" then
    let* _ := only ch [(nmda, "datastore"); (nmda, "default-operation"); (nmda, "config"); (nmda, "url")] in
    let* s := must (txt ch nmda "datastore") in let* d := txt ch nmda "default-operation" in let* c := rd_content ch nmda in Some (REditData s d c)
  else if is_op t sn "establish-subscription" then
    let* st := txt ch yp "datastore" in
    match st with
    | None =>
      let* _ := only ch [(sn, "stream-subtree-filter"); (sn, "stream-xpath-filter"); (sn, "stream-filter-name"); (sn, "stream");
                         (sn, "replay-start-time"); (sn, "stop-time"); (sn, "encoding")] in
      let* f := rd_sub_filter ch in let* s := must (txt ch sn "stream") in let* a := txt ch sn "replay-start-time" in
      let* b := txt ch sn "stop-time" in let* e := txt ch sn "encoding" in Some (REstablish f s a b e)
    | Some s =>
      let* _ := only ch [(yp, "datastore"); (yp, "datastore-subtree-filter"); (yp, "datastore-xpath-filter"); (yp, "selection-filter-ref");
                         (sn, "stop-time"); (sn, "encoding"); (yp, "periodic"); (yp, "on-change")] in
      let* f := rd_push_filter ch in let* b := txt ch sn "stop-time" in let* e := txt ch sn "encoding" in let* p := rd_push ch in
      Some (REstablishPush s f b e p)
    end
  else if is_op t sn "modify-subscription" then
    let* i := must (number ch sn "id") in
    let* st := txt ch yp "datastore" in
    match st with
    | None =>
      let* _ := only ch [(sn, "id"); (sn, "stream-subtree-filter"); (sn, "stream-xpath-filter"); (sn, "stream-filter-name"); (sn, "stop-time")] in
      let* f := rd_sub_filter ch in let* b := txt ch sn "stop-time" in Some (RModify i f b)
    | Some s =>
      let* _ := only ch [(sn, "id"); (yp, "datastore"); (yp, "datastore-subtree-filter"); (yp, "datastore-xpath-filter");
                         (yp, "selection-filter-ref"); (sn, "stop-time"); (yp, "periodic"); (yp, "on-change")] in
      let* f := rd_push_filter ch in let* b := txt ch sn "stop-time" in let* p := rd_push ch in Some (RModifyPush i s f b p)
    end
  else if is_op t sn "delete-subscription" then let* _ := only ch [(sn, "id")] in let* i := must (number ch sn "id") in Some (RDeleteSub i)
  else if is_op t sn "kill-subscription" then let* _ := only ch [(sn, "id")] in let* i := must (number ch sn "id") in Some (RKillSub i)
  else if is_op t yp "resync-subscription" then let* _ := only ch [(yp, "id")] in let* i := must (number ch yp "id") in Some (RResync i)
  else None.

(* ------------------------------------------------------------------ *)
(** ** Numbers *)

Lemma value_num n : value (num n) = Some n.
Proof.
  unfold value, num. rewrite list_ascii_of_string_of_list_ascii.
  pose proof (dec_nonempty n) as H0. pose proof (dec_digits n) as H1. pose proof (dec_val n) as H2.
  destruct (dec n) as [|a l] eqn:E; [congruence|].
  assert (forallb is_digit (a :: l) = true) as ->. { apply forallb_forall. exact H1. }
  rewrite H2. reflexivity.
Qed.

Lemma dec_len_pow k : forall n, (n < 10 ^ N.of_nat (S k))%N -> List.length (dec n) <= S k.
Proof.
  induction k as [|k IH]; intros n H.
  - rewrite dec_small by (change (10 ^ N.of_nat 1)%N with 10%N in H; exact H). cbn. lia.
  - destruct (N.ltb_spec n 10).
    + rewrite dec_small by assumption. cbn. lia.
    + rewrite dec_step by assumption. rewrite app_length. cbn [List.length].
      assert (n / 10 < 10 ^ N.of_nat (S k))%N as Hd.
      { apply N.div_lt_upper_bound; [lia|]. rewrite <- N.pow_succ_r'. rewrite <- Nat2N.inj_succ. exact H. }
      specialize (IH _ Hd). lia.
Qed.

(** "char str[11]" (line 2626): every uint32_t fits with its terminating byte. *)
Theorem c72_buffer : forall n, (n < 2 ^ 32)%N -> List.length (dec n) + 1 <= 11.
Proof.
  intros n H. pose proof (dec_len_pow 9 n) as L. assert (n < 10 ^ N.of_nat 10)%N as H1.
  { eapply N.lt_trans; [exact H|]. reflexivity. }
  specialize (L H1). lia.
Qed.
Example c72_buffer_tight : List.length (dec 4294967295) + 1 = 11.
Proof. vm_compute. reflexivity. Qed.

(* ------------------------------------------------------------------ *)
(** ** Runs without a refusal *)

Fixpoint run (l : list item) (st : list node) : list node :=
  match l with
  | [] => st
  | Call c :: r => run r (put1 st c)
  | Loop cs :: r => run r (fold_left put1 cs st)
  | Err :: r => run r st
  end.
Fixpoint safe (acc : list node -> call -> bool) (l : list item) : Prop :=
  match l with
  | [] => True
  | Loop cs :: r => (r = [] \/ forall st c, In c cs -> acc st c = true) /\ safe acc r
  | _ :: r => safe acc r
  end.
Lemma loop_true acc cs : forall st rc st', exec_loop acc cs st rc = (st', true) -> st' = fold_left put1 cs st.
Proof.
  induction cs as [|c cs IH]; cbn; intros st rc st' H; [congruence|].
  destruct (acc st c); [eauto | congruence].
Qed.
Lemma loop_acc acc cs : forall st, (forall st c, In c cs -> acc st c = true) -> exec_loop acc cs st true = (fold_left put1 cs st, true).
Proof.
  induction cs as [|c cs IH]; cbn; intros st H; [reflexivity|]. rewrite H by auto. apply IH. auto.
Qed.
Lemma exec_run acc l : forall st st', safe acc l -> exec acc l st true = (st', true) -> st' = run l st /\ ~ In Err l.
Proof.
  induction l as [|[c|cs|] l IH]; cbn [exec safe run]; intros st st' S H.
  - split; [congruence | intros []].
  - destruct (acc st c); [|congruence]. destruct (IH _ _ S H) as [E N]. split; [exact E|]. intros [X|X]; [discriminate | auto].
  - destruct S as [[-> | A] S].
    + destruct (exec_loop acc cs st true) as [s b] eqn:E. cbn in H. injection H as -> ->. apply loop_true in E.
      split; [exact E|]. intros [X|[]]; discriminate.
    + rewrite loop_acc in H by exact A. destruct (IH _ _ S H) as [E N]. split; [exact E|]. intros [X|X]; [discriminate | auto].
  - congruence.
Qed.

(* ------------------------------------------------------------------ *)
(** ** Lists of leaves *)

Lemma fold_leaves m n os : forall st, fold_left put1 (map (fun o => CLeaf false m n o) os) st = st ++ map (Leaf m n) os.
Proof.
  induction os as [|o os IH]; intros st; cbn [map fold_left]; [symmetry; apply app_nil_r|].
  rewrite IH. cbn [put1]. rewrite <- app_assoc. reflexivity.
Qed.
Lemma on_last_snoc f x : forall l, on_last f (l ++ [x]) = l ++ [f x].
Proof.
  induction l as [|a l IH]; [reflexivity|]. cbn [app on_last]. rewrite IH. destruct l; reflexivity.
Qed.
Lemma fold_inner m n m' n' os : forall st ch,
  fold_left put1 (map (fun o => CLeaf true m n o) os) (st ++ [Inner m' n' ch]) = st ++ [Inner m' n' (ch ++ map (Leaf m n) os)].
Proof.
  induction os as [|o os IH]; intros st ch; cbn [map fold_left]; [rewrite app_nil_r; reflexivity|].
  cbn [put1]. rewrite on_last_snoc. cbn [addc]. rewrite IH. rewrite <- app_assoc. reflexivity.
Qed.
Lemma kids_app a b m n : kids (a ++ b) m n = kids a m n ++ kids b m n.
Proof. unfold kids. apply filter_app. Qed.
Lemma kids_leaves m n m' n' os : kids (map (Leaf m n) os) m' n' = if String.eqb m m' && String.eqb n n' then map (Leaf m n) os else [].
Proof.
  induction os as [|o os IH]; cbn [map kids filter]; [destruct (_ && _); reflexivity|].
  unfold kids in IH. cbn [named nmod nname]. rewrite IH. unfold named. cbn [nmod nname]. destruct (_ && _); reflexivity.
Qed.
Lemma leaves_map m n os : leaves (map (Leaf m n) os) = Some os.
Proof. induction os as [|o os IH]; [reflexivity|]. cbn [map leaves]. rewrite IH. reflexivity. Qed.
Lemma leaves_app_nil m n os : leaves (map (Leaf m n) os ++ []) = Some os.
Proof. rewrite app_nil_r. apply leaves_map. Qed.
Lemma all_leaves m n l os :
  forallb (fun x => existsb (fun p => named (fst p) (snd p) x) l) (map (Leaf m n) os)
  = match os with [] => true | _ => existsb (fun p => String.eqb m (fst p) && String.eqb n (snd p)) l end.
Proof.
  assert (forall o, existsb (fun p => named (fst p) (snd p) (Leaf m n o)) l = existsb (fun p => String.eqb m (fst p) && String.eqb n (snd p)) l) as H by (intros; reflexivity).
  induction os as [|o os IH]; [reflexivity|]. cbn [map forallb]. rewrite IH, H. destruct os; [apply andb_true_r|].
  destruct (existsb _ l); reflexivity.
Qed.

Lemma xml_first_spec x : String.eqb x "" || starts "<"%char x = xml_first x.
Proof. destruct x; reflexivity. Qed.

(* ------------------------------------------------------------------ *)
(** ** The tree of each operation *)

Lemma wd_opt b m n w : match w with WdUnknown => [] | _ => [Call (CLeaf b m n (wd_str w))] end = opt_leaf b m n (a_wd w).
Proof. destruct w; reflexivity. Qed.
Lemma dflt_opt m d : dfltop_items m d = opt_leaf false m "default-operation" (a_dflt d).
Proof. destruct d; reflexivity. Qed.
Lemma test_opt b m n d : match d with ToUnknown => [] | _ => [Call (CLeaf b m n (testopt_str d))] end = opt_leaf b m n (a_test d).
Proof. destruct d; reflexivity. Qed.
Lemma err_opt b m n d : match d with EoUnknown => [] | _ => [Call (CLeaf b m n (erropt_str d))] end = opt_leaf b m n (a_err d).
Proof. destruct d; reflexivity. Qed.
Ltac enums := cbn [asked]; unfold wd_items; rewrite ?wd_opt, ?dflt_opt, ?test_opt, ?err_opt;
  repeat match goal with
         | |- context [a_wd ?w] => is_var w; generalize (a_wd w); clear w; intro
         | |- context [a_dflt ?w] => is_var w; generalize (a_dflt w); clear w; intro
         | |- context [a_test ?w] => is_var w; generalize (a_test w); clear w; intro
         | |- context [a_err ?w] => is_var w; generalize (a_err w); clear w; intro
         end.
Ltac rd := lazy -[value num]; rewrite ?value_num; reflexivity.
Ltac splits :=
  repeat match goal with
         | |- context [match ?x with Some _ => _ | None => _ end] => is_var x; destruct x
         | |- context [N.eqb ?x 0] => is_var x; destruct (N.eqb x 0)
         | |- context [if ?x then _ else _] => is_var x; destruct x
         | |- context [match ?x with DsConfig => _ | _ => _ end] => is_var x; destruct x
         | |- context [match ?x with DoUnknown => _ | _ => _ end] => is_var x; destruct x
         | |- context [match ?x with ToUnknown => _ | _ => _ end] => is_var x; destruct x
         | |- context [match ?x with EoUnknown => _ | _ => _ end] => is_var x; destruct x
         | |- context [match ?x with WdUnknown => _ | _ => _ end] => is_var x; destruct x
         end.
Ltac splits2 :=
  repeat match goal with
         | |- context [xml_first ?x] => is_var x; destruct (xml_first x)
         | |- context [path_first ?x] => is_var x; destruct (path_first x)
         end.
Ltac prep := unfold a_source, a_target, filter_items, wd_items, sub_filter, cont_items, ds_item, dfltop_items, opt_leaf, num_leaf, a_filter, a_filter3, a_content,
    a_store, a_wd, a_dflt, a_test, a_err, a_num, a_target, a_source, opt_map, ds_str, wd_str, dfltop_str, testopt_str, erropt_str;
  rewrite ?xml_first_spec.

Ltac go := enums; prep; splits; cbv beta iota; rewrite ?xml_first_spec; change (starts "/"%char) with path_first; splits2; rd.

Ltac wdr mods w NE EL l :=
  assert (wd_items mods w = wd_items (fun _ => true) w) as R;
  [ rewrite <- EL in NE; unfold wd_items in *; destruct w; try reflexivity; destruct (mods ncwd); try reflexivity;
    exfalso; apply NE; repeat first [ left; reflexivity | apply in_or_app; right | right ]
  | rewrite R in EL; clear R NE; subst l; go ].

Lemma run_app a b : forall st, run (a ++ b) st = run b (run a st).
Proof. induction a as [|[c|cs|] a IH]; intros st; cbn [app run]; auto. Qed.
Section Mid.
  Variables (A B : list node) (m n : string) (os : list string).
  Lemma kids_mid m' n' : String.eqb m m' && String.eqb n n' = false -> kids (A ++ map (Leaf m n) os ++ B) m' n' = kids (A ++ B) m' n'.
  Proof. intros H. rewrite !kids_app, kids_leaves, H. reflexivity. Qed.
  Lemma texts_mid : kids (A ++ B) m n = [] -> texts (A ++ map (Leaf m n) os ++ B) m n = Some os.
  Proof.
    rewrite kids_app. intros H. apply app_eq_nil in H. destruct H as [H1 H2]. unfold texts. rewrite !kids_app, kids_leaves, H1, H2, !String.eqb_refl.
    cbn [andb app]. apply leaves_app_nil.
  Qed.
  Lemma only_mid l : existsb (fun p => String.eqb m (fst p) && String.eqb n (snd p)) l = true -> only (A ++ map (Leaf m n) os ++ B) l = only (A ++ B) l.
  Proof. intros H. unfold only. rewrite !forallb_app, all_leaves, H. destruct os; reflexivity. Qed.
End Mid.
Ltac mid := rewrite only_mid by reflexivity; unfold txt, xml, flag, number, txt; rewrite !kids_mid by reflexivity.

Lemma get_data_says s f cf os neg dp wo w :
  let '(m, n, l) := program (fun _ => true) (GetData s f cf os neg dp wo w) in
  says (Inner m n (run l [])) = Some (asked (GetData s f cf os neg dp wo w)).
Proof.
  cbn [program]. set (o := if neg then "negated-origin-filter" else "origin-filter").
  set (post := num_leaf _ _ _ _ ++ _). set (pre := (match f with Some x => if xml_first x then [Call (CAny false nmda "subtree-filter" (Some x))] else [Call (CLeaf false nmda "xpath-filter" x)] | None => [] end)
       ++ opt_leaf false nmda "config-filter" cf).
  assert (forall st, run post st = st ++ run post []) as HB.
  { intros st. subst post. unfold num_leaf. destruct (N.eqb dp 0), wo, w; cbn [app run put1]; rewrite <- ?app_assoc, ?app_nil_r; reflexivity. }
  set (A := run (Call (CLeaf false nmda "datastore" s) :: pre) []).
  assert (run (Call (CLeaf false nmda "datastore" s) :: (match f with Some x => if xml_first x then [Call (CAny false nmda "subtree-filter" (Some x))] else [Call (CLeaf false nmda "xpath-filter" x)] | None => [] end)
       ++ opt_leaf false nmda "config-filter" cf ++ Loop (map (fun v => CLeaf false nmda o v) os) :: post) []
     = A ++ map (Leaf nmda o) os ++ run post []) as ->.
  { subst A pre. cbn [run]. rewrite !run_app. cbn [run]. rewrite fold_leaves, HB, <- app_assoc. reflexivity. }
  set (B := run post []).
  change (says (Inner nmda "get-data" (A ++ map (Leaf nmda o) os ++ B))) with
    (let ch := A ++ map (Leaf nmda o) os ++ B in
    let* _ := only ch [(nmda, "datastore"); (nmda, "subtree-filter"); (nmda, "xpath-filter"); (nmda, "config-filter"); (nmda, "origin-filter");
                       (nmda, "negated-origin-filter"); (nmda, "max-depth"); (nmda, "with-origin"); (nmda, "with-defaults")] in
    let* s := must (txt ch nmda "datastore") in
    let* f := rd_choice (xml ch nmda "subtree-filter") FSubtree (txt ch nmda "xpath-filter") FXPath (Some None) FName in
    let* cf := txt ch nmda "config-filter" in let* o := texts ch nmda "origin-filter" in let* no := texts ch nmda "negated-origin-filter" in
    let* d := number ch nmda "max-depth" in let* wo := flag ch nmda "with-origin" in let* w := txt ch nmda "with-defaults" in
    Some (RGetData s f cf o no d wo w)).
  cbv zeta.
  assert (K : forall k, (k = "origin-filter" \/ k = "negated-origin-filter") -> kids (A ++ B) nmda k = []).
  { intros k Hk. subst A B pre post. unfold opt_leaf, num_leaf. destruct Hk as [-> | ->]; destruct f as [f|]; [destruct (xml_first f) | | destruct (xml_first f) |];
      destruct cf, (N.eqb dp 0), wo, w; reflexivity. }
  destruct neg; subst o; cbv iota.
  - rewrite texts_mid by (apply K; auto). unfold texts. rewrite kids_mid by reflexivity. rewrite K by auto. mid.
    subst A B pre post. clear HB K. go.
  - rewrite texts_mid by (apply K; auto). unfold texts. rewrite kids_mid by reflexivity. rewrite K by auto. mid.
    subst A B pre post. clear HB K. go.
Qed.

Lemma est_push_says s f b e d y x :
  let '(m, n, l) := program (fun _ => true) (EstPush s f b e (OnChange d y x)) in
  says (Inner m n (run l [])) = Some (asked (EstPush s f b e (OnChange d y x))).
Proof.
  cbn [program].
  set (c0 := run (num_leaf false yp "dampening-period" d ++ [Call (CLeaf false yp "sync-on-start" (if y then "true" else "false"))]) []).
  set (C := c0 ++ map (Leaf yp "excluded-change") x ++ []).
  set (X := run (Call (CLeaf false yp "datastore" s) :: sub_filter yp "datastore-subtree-filter" "datastore-xpath-filter" "selection-filter-ref" f
       ++ opt_leaf false sn "stop-time" b ++ opt_leaf false sn "encoding" e) []).
  match goal with |- says (Inner _ _ ?t) = _ => assert (t = X ++ [Inner yp "on-change" C]) as -> end.
  { subst X C. rewrite app_nil_r. cbn [run]. rewrite !run_app. cbn [run]. rewrite run_app. cbn [run].
    match goal with |- context [put1 (put1 ?z (CInner _ _))] => idtac | _ => idtac end.
    match goal with |- fold_left put1 _ (put1 ?Z _) = ?P ++ _ => assert (put1 Z (CLeaf true yp "sync-on-start" (if y then "true" else "false")) = P ++ [Inner yp "on-change" c0]) as -> end.
    { subst c0. unfold num_leaf. destruct (N.eqb d 0); cbn [app run]; cbn [put1]; rewrite !on_last_snoc; reflexivity. }
    apply fold_inner. }
  assert (C1 : only C [(yp, "dampening-period"); (yp, "sync-on-start"); (yp, "excluded-change")] = Some tt).
  { subst C c0. rewrite only_mid by reflexivity. unfold num_leaf. destruct (N.eqb d 0), y; reflexivity. }
  assert (C2 : number C yp "dampening-period" = Some (a_num d)).
  { subst C c0. unfold number, txt. rewrite kids_mid by reflexivity. unfold num_leaf, a_num. destruct (N.eqb d 0), y; rd. }
  assert (C3 : truth C yp "sync-on-start" = Some (Some y)).
  { subst C c0. unfold truth, txt. rewrite kids_mid by reflexivity. unfold num_leaf. destruct (N.eqb d 0), y; reflexivity. }
  assert (C4 : texts C yp "excluded-change" = Some x).
  { subst C c0. apply texts_mid. unfold num_leaf. destruct (N.eqb d 0), y; reflexivity. }
  clearbody C. clear c0.
  assert (P : rd_push (X ++ [Inner yp "on-change" C]) = Some (WhenChanged (a_num d) (Some y) x)).
  { unfold rd_push, inside. rewrite !kids_app.
    assert (forall k, (k = "periodic" \/ k = "on-change") -> kids X yp k = []) as K.
    { subst X. unfold sub_filter, opt_leaf. intros k [-> | ->]; (destruct f as [f|]; [destruct (xml_first f), (path_first f)|]; destruct b, e; reflexivity). }
    rewrite !K by auto. cbn [app].
    change (kids [Inner yp "on-change" C] yp "periodic") with (@nil node). change (kids [Inner yp "on-change" C] yp "on-change") with [Inner yp "on-change" C].
    cbn [bind]. rewrite C1. cbn [bind]. rewrite C2. cbn [bind]. rewrite C3. cbn [bind]. rewrite C4. reflexivity. }
  change (says (Inner sn "establish-subscription" (X ++ [Inner yp "on-change" C]))) with
    (let ch := X ++ [Inner yp "on-change" C] in
    let* st := txt ch yp "datastore" in
    match st with
    | None =>
      let* _ := only ch [(sn, "stream-subtree-filter"); (sn, "stream-xpath-filter"); (sn, "stream-filter-name"); (sn, "stream");
                         (sn, "replay-start-time"); (sn, "stop-time"); (sn, "encoding")] in
      let* f := rd_sub_filter ch in let* s := must (txt ch sn "stream") in let* a := txt ch sn "replay-start-time" in
      let* b := txt ch sn "stop-time" in let* e := txt ch sn "encoding" in Some (REstablish f s a b e)
    | Some s =>
      let* _ := only ch [(yp, "datastore"); (yp, "datastore-subtree-filter"); (yp, "datastore-xpath-filter"); (yp, "selection-filter-ref");
                         (sn, "stop-time"); (sn, "encoding"); (yp, "periodic"); (yp, "on-change")] in
      let* f := rd_push_filter ch in let* b := txt ch sn "stop-time" in let* e := txt ch sn "encoding" in let* p := rd_push ch in
      Some (REstablishPush s f b e p)
    end).
  cbv zeta. rewrite P. clear P C1 C2 C3 C4. subst X. cbn [asked]. prep. generalize (if (d =? 0)%N then None else Some d). intros dd.
  destruct f as [f|]; cbv beta iota; rewrite ?xml_first_spec; change (starts "/"%char) with path_first; splits2; destruct b, e; reflexivity.
Qed.

Lemma tree_says mods r : forall m n l, program mods r = (m, n, l) -> ~ In Err l -> says (Inner m n (run l [])) = Some (asked r).
Proof.
  intros m n l E NE.
  destruct r; cbn [program] in E; injection E as <- <- EL.
  - wdr mods w NE EL l.
  - clear NE. subst l. go.
  - wdr mods w NE EL l.
  - clear NE. subst l. go.
  - clear NE. subst l. go.
  - clear NE. subst l. go.
  - wdr mods w NE EL l.
  - clear NE. subst l. go.
  - clear NE. subst l. go.
  - clear NE. subst l. go.
  - clear NE. subst l. go.
  - clear NE. subst l. go.
  - clear NE. subst l. go.
  - clear NE. subst l. go.
  - (* get-data *)
    subst l. apply (get_data_says store f cf origins negated depth worigin w).
  - clear NE. subst l. go.
  - clear NE. subst l. go.
  - clear NE. subst l. go.
  - clear NE. subst l. go.
  - clear NE. subst l. go.
  - (* establish-subscription of yang-push *)
    clear NE. subst l. destruct t; [go|]. apply (est_push_says store f stop enc damp sync excl).
  - clear NE. subst l. destruct t; go.
  - clear NE. subst l. go.
Qed.

(* ------------------------------------------------------------------ *)
(** ** C72 *)

(** What the loop over the filters of origins needs: libyang takes each of them, or nothing is added after them. *)
Definition origins_fine (acc : list node -> call -> bool) (r : rpc) : Prop :=
  match r with
  | GetData _ _ _ os neg depth wo w =>
    (depth = 0%N /\ wo = false /\ w = WdUnknown)
    \/ forall st o, In o os -> acc st (CLeaf false nmda (if neg then "negated-origin-filter" else "origin-filter") o) = true
  | _ => True
  end.

Lemma safe_calls acc l : (forall i, In i l -> exists c, i = Call c \/ i = Err) -> safe acc l.
Proof.
  induction l as [|i l IH]; intros H; [exact I|]. destruct (H i (or_introl eq_refl)) as [c [-> | ->]]; cbn; apply IH; intros; apply H; right; assumption.
Qed.
Lemma safe_app acc a b : safe acc a -> (forall cs, ~ In (Loop cs) a) -> safe acc b -> safe acc (a ++ b).
Proof.
  induction a as [|[c|cs|] a IH]; intros Ha Hn Hb; [exact Hb | | |].
  - cbn in *. apply IH; auto. intros cs X. apply (Hn cs). right; exact X.
  - exfalso. apply (Hn cs). left; reflexivity.
  - cbn in *. apply IH; auto. intros cs X. apply (Hn cs). right; exact X.
Qed.
Ltac plain := unfold filter_items, wd_items, sub_filter, cont_items, ds_item, dfltop_items, opt_leaf, num_leaf;
  repeat match goal with
         | |- context [match ?x with Some _ => _ | None => _ end] => destruct x
         | |- context [if ?x then _ else _] => destruct x
         | |- context [match ?x with DoUnknown => _ | _ => _ end] => destruct x
         | |- context [match ?x with ToUnknown => _ | _ => _ end] => destruct x
         | |- context [match ?x with EoUnknown => _ | _ => _ end] => destruct x
         | |- context [match ?x with WdUnknown => _ | _ => _ end] => destruct x
         end; cbn; auto.
Lemma program_safe acc mods r m n l : program mods r = (m, n, l) -> origins_fine acc r -> safe acc l.
Proof.
  intros E O. destruct r; cbn [program] in E; injection E as <- <- <-; try (clear O; plain; fail).
  - (* get-data *)
    cbn [origins_fine] in O.
    match goal with |- safe acc (_ :: ?a ++ ?b ++ Loop ?cs :: ?post) => assert (P : (post = [] \/ forall st c, In c cs -> acc st c = true) /\ safe acc post) end.
    { split.
      - destruct O as [(-> & -> & ->) | O]; [left; reflexivity | right]. intros st c X. apply in_map_iff in X. destruct X as (o & <- & X). apply O, X.
      - clear O. plain. }
    cbn [safe]. unfold opt_leaf.
    destruct f as [f|]; [destruct (xml_first f)|]; destruct cf; cbn [app safe]; exact P.
  - clear O. destruct t; plain.
  - clear O. destruct t; plain.
Qed.

Theorem c72_sent_partial : forall running mods root acc r t,
  send_tree running mods root acc r = Some t -> origins_fine acc r -> says t = Some (asked r).
Proof.
  intros running mods root acc r t H O. unfold send_tree in H.
  destruct running; [|discriminate]. cbn [negb] in H. destruct (forallb mods (needs r)); [|discriminate]. cbn [negb] in H.
  destruct (program mods r) as [[m n] l] eqn:E. destruct (root m n); [|discriminate]. cbn [negb] in H.
  destruct (exec acc l [] true) as [st rc] eqn:X. destruct rc; [|discriminate]. injection H as <-.
  destruct (exec_run acc l [] st (program_safe _ _ _ _ _ _ E O) X) as [-> NE]. exact (tree_says mods r m n l E NE).
Qed.

(** All operations but get-data need no condition. *)
Theorem c72_others : forall running mods root acc r t,
  (forall s f cf os neg d wo w, r <> GetData s f cf os neg d wo w) -> send_tree running mods root acc r = Some t -> says t = Some (asked r).
Proof.
  intros running mods root acc r t N H. apply (c72_sent_partial _ _ _ _ _ _ H). destruct r; try exact I. exfalso. eapply N. reflexivity.
Qed.

(** What is sent determines what was asked. *)
Theorem c72_unambiguous : forall running mods root acc r1 r2 t,
  send_tree running mods root acc r1 = Some t -> send_tree running mods root acc r2 = Some t ->
  origins_fine acc r1 -> origins_fine acc r2 -> asked r1 = asked r2.
Proof.
  intros running mods root acc r1 r2 t H1 H2 O1 O2. pose proof (c72_sent_partial _ _ _ _ _ _ H1 O1). pose proof (c72_sent_partial _ _ _ _ _ _ H2 O2). congruence.
Qed.

Definition noerr (l : list item) : bool := forallb (fun i => match i with Err => false | _ => true end) l.
Lemma noerr_in l : noerr l = true -> ~ In Err l.
Proof. intros H X. unfold noerr in H. rewrite forallb_forall in H. specialize (H _ X). discriminate H. Qed.
Lemma ne_app a b : noerr (a ++ b) = noerr a && noerr b.
Proof. apply forallb_app. Qed.
Lemma ne_call c l : noerr (Call c :: l) = noerr l.
Proof. reflexivity. Qed.
Lemma ne_loop c l : noerr (Loop c :: l) = noerr l.
Proof. reflexivity. Qed.
Lemma ne_nil : noerr [] = true.
Proof. reflexivity. Qed.
Lemma ne_filter m f : noerr (filter_items m f) = true.
Proof. destruct f as [f|]; [|reflexivity]. cbn. destruct (xml_first f); reflexivity. Qed.
Lemma ne_sub m a b c f : noerr (sub_filter m a b c f) = true.
Proof. destruct f as [f|]; [|reflexivity]. cbn. destruct (xml_first f), (path_first f); reflexivity. Qed.
Lemma ne_cont b m c : noerr (cont_items b m c) = true.
Proof. unfold cont_items. destruct (xml_first c); reflexivity. Qed.
Lemma ne_opt b m n v : noerr (opt_leaf b m n v) = true.
Proof. destruct v; reflexivity. Qed.
Lemma ne_num b m n v : noerr (num_leaf b m n v) = true.
Proof. unfold num_leaf. destruct (N.eqb v 0); reflexivity. Qed.
Lemma ne_ds d : noerr (ds_item d) = true.
Proof. reflexivity. Qed.
Lemma ne_dflt m d : noerr (dfltop_items m d) = true.
Proof. destruct d; reflexivity. Qed.
Lemma ne_wd mods w : (forall m, mods m = true) -> noerr (wd_items mods w) = true.
Proof. intros M. unfold wd_items. rewrite M. destruct w; reflexivity. Qed.
Ltac ne1 := rewrite ?ne_app, ?ne_call, ?ne_loop, ?ne_filter, ?ne_sub, ?ne_cont, ?ne_opt, ?ne_num, ?ne_ds, ?ne_dflt, ?ne_nil; cbn [andb].
Ltac ne := do 4 ne1.

(** A request that libyang takes is sent: the theorems above are not about an empty set. *)
Theorem c72_sent_all : forall mods root acc r,
  (forall m, mods m = true) -> (forall m n, root m n = true) -> (forall st c, acc st c = true) ->
  exists t, send_tree true mods root acc r = Some t /\ says t = Some (asked r).
Proof.
  intros mods root acc r M R A.
  assert (exists t, send_tree true mods root acc r = Some t) as [t H].
  { unfold send_tree. cbn [negb]. assert (forallb mods (needs r) = true) as ->. { apply forallb_forall. intros; apply M. } cbn [negb].
    destruct (program mods r) as [[m n] l] eqn:E. rewrite R. cbn [negb].
    assert (~ In Err l) as NE.
    { apply noerr_in. destruct r; cbn [program] in E; injection E as <- <- <-; try destruct t; ne; repeat match goal with |- context [wd_items mods ?v] => rewrite (ne_wd mods v M) end; ne;
        try reflexivity; repeat match goal with
                                | |- context [noerr (match ?x with Some _ => _ | None => _ end)] => destruct x; ne
                                | |- context [noerr (if ?x then _ else _)] => destruct x; ne
                                | |- context [noerr (match ?x with ToUnknown => _ | _ => _ end)] => destruct x; ne
                                | |- context [noerr (match ?x with EoUnknown => _ | _ => _ end)] => destruct x; ne
                                | |- context [noerr (match ?x with WdUnknown => _ | _ => _ end)] => destruct x; ne
                                end; reflexivity. }
    assert (forall l st, ~ In Err l -> exists s, exec acc l st true = (s, true)) as X.
    { clear - A. induction l as [|[c|cs|] l IH]; intros st NE; cbn [exec].
      - eauto.
      - rewrite A. apply IH. intros X; apply NE; right; exact X.
      - rewrite loop_acc by auto. apply IH. intros X; apply NE; right; exact X.
      - exfalso. apply NE. left; reflexivity. }
    destruct (X l [] NE) as [s ->]. eauto. }
  exists t. split; [exact H|]. apply (c72_sent_partial _ _ _ _ _ _ H). destruct r; try exact I. right. intros; apply A.
Qed.

(** The second filter is refused (it is no identity of an origin): get-data is sent with the first one only, and data of every other
    origin the caller asked for is missing, because with-origin was added after it. *)
Definition one_origin (st : list node) (c : call) : bool :=
  match c with CLeaf _ _ n v => negb (String.eqb n "origin-filter") || String.eqb v "ietf-origin:intended" | _ => true end.
Definition two_origins := GetData "ietf-datastores:operational" None None ["ietf-origin:intended"; "ietf-origin:leaned"; "ietf-origin:system"] false 0 true WdUnknown.
Theorem c72_refuted : exists acc r t q,
  send_tree true (fun _ => true) (fun _ _ => true) acc r = Some t /\ says t = Some q /\ q <> asked r.
Proof.
  exists one_origin, two_origins. eexists. eexists. split; [vm_compute; reflexivity|]. split; [vm_compute; reflexivity|]. vm_compute. discriminate.
Qed.
(** The only filter is refused: data of all origins are asked for. *)
Theorem c72_all_refuted : exists acc store o t,
  send_tree true (fun _ => true) (fun _ _ => true) acc (GetData store None None [o] false 0 true WdUnknown) = Some t
  /\ says t = Some (asked (GetData store None None [] false 0 true WdUnknown)).
Proof.
  exists one_origin, "ietf-datastores:operational", "ietf-origin:leaned". eexists. split; vm_compute; reflexivity.
Qed.

(* ------------------------------------------------------------------ *)
(** ** C73: what the constructors let through *)

(** A filter that a constructor takes is empty or starts as XML, as a path or with a letter, so that it is never sent as a path or a name
    that cannot be one; contents are empty, XML or start with a letter. *)
Definition begins (x : string) (p : ascii -> Prop) : Prop := match x with EmptyString => True | String c _ => p c end.
Definition letter (c : ascii) : Prop := In c (list_ascii_of_string "abcdefghijklmnopqrstuvwxyzABCDEFGHIJKLMNOPQRSTUVWXYZ").
Definition good_flt (f : flt) : Prop :=
  match f with FSubtree x => begins x (fun c => c = "<"%char) | FXPath x => begins x (fun c => c = "/"%char \/ letter c) | FName x => begins x letter end.
Definition good_place (p : place) : Prop :=
  match p with Inline x => begins x (fun c => c = "<"%char) | AtUrl x => begins x letter | InStore _ => True end.
Definition good_opt (f : option flt) : Prop := match f with Some x => good_flt x | None => True end.
Definition good (q : req) : Prop :=
  match q with
  | RGetConfig _ f _ | RGet f _ | RSubscribe _ f _ _ | RGetData _ f _ _ _ _ _ _ | REstablish f _ _ _ _ => good_opt f
  | REdit _ _ _ _ c | RCopy _ c _ | RValidate c | REditData _ _ c => good_place c
  | RKill n | RDeleteSub n | RKillSub n | RResync n => n <> 0%N
  | RModify n f _ => n <> 0%N /\ good_opt f
  | REstablishPush _ f _ _ (EveryPeriod n _) => n <> 0%N /\ good_opt f
  | REstablishPush _ f _ _ (WhenChanged _ _ _) => good_opt f
  | RModifyPush n _ f _ _ => n <> 0%N /\ good_opt f
  | _ => True
  end.
Lemma alpha_letter c : alpha c = true -> letter c.
Proof.
  unfold alpha, letter. intros H. destruct c as [[|] [|] [|] [|] [|] [|] [|] [|]]; try discriminate H; vm_compute; tauto.
Qed.
Lemma chk_some b r r' : chk b r = Some r' -> b = true /\ r' = r.
Proof. unfold chk. destruct b; [|discriminate]. intros H; split; congruence. Qed.
Lemma nz_some n : nz n = true -> n <> 0%N.
Proof. unfold nz. intros H ->. discriminate H. Qed.
Lemma ok_filter f : filter_ok f = true -> good_opt (opt_map a_filter f).
Proof.
  destruct f as [[|c x]|]; cbn; auto. unfold a_filter. cbn [String.eqb orb starts]. destruct (Ascii.eqb_spec c "<"%char); cbn; [auto|].
  destruct (Ascii.eqb_spec c "/"%char); cbn; [auto|]. intros H. right. apply alpha_letter, H.
Qed.
Lemma ok_filter3 f : filter_ok f = true -> good_opt (opt_map a_filter3 f).
Proof.
  destruct f as [[|c x]|]; cbn; auto. unfold a_filter3. cbn [String.eqb orb starts]. destruct (Ascii.eqb_spec c "<"%char); cbn; [auto|].
  destruct (Ascii.eqb_spec c "/"%char); cbn; [auto|]. intros H. apply alpha_letter, H.
Qed.
Lemma ok_content x : cont_ok (Some x) = true -> good_place (a_content x).
Proof.
  destruct x as [|c x]; cbn; auto. unfold a_content. cbn [String.eqb orb starts]. destruct (Ascii.eqb_spec c "<"%char); cbn; [auto|].
  intros H. apply alpha_letter, H.
Qed.
Lemma ok_source d c : cont_ok c = true -> good_place (a_source d c).
Proof. destruct c as [x|]; [apply ok_content|]. intros _. destruct d; exact I. Qed.

Theorem c73_constructed : forall a r, construct a = Some r -> asked r = asked a /\ good (asked r).
Proof.
  intros a r H. destruct a; cbn [construct] in H; try (injection H as <-; split; [reflexivity | exact I]);
    try (match goal with t : trig |- _ => destruct t end);
    apply chk_some in H; destruct H as [H ->]; (split; [reflexivity|]); cbn [asked good];
    try (apply andb_prop in H; destruct H as [H H']);
    try (match goal with t : mtrig |- _ => destruct t end);
    try split; auto using ok_filter, ok_filter3, ok_content, ok_source, nz_some.
Qed.

(** No such request is refused. *)
Lemma letter_alpha c : letter c -> alpha c = true.
Proof.
  unfold letter. intros H. vm_compute in H. repeat (destruct H as [<-|H]; [reflexivity|]). destruct H.
Qed.
Lemma filter_ok_of f : good_opt (opt_map a_filter f) -> filter_ok f = true.
Proof.
  destruct f as [[|c x]|]; cbn; auto. unfold a_filter. cbn [String.eqb orb starts]. destruct (Ascii.eqb_spec c "<"%char); cbn; [auto|].
  intros [-> | H]; [reflexivity|]. rewrite letter_alpha by exact H. apply orb_true_r.
Qed.
Lemma filter_ok_of3 f : good_opt (opt_map a_filter3 f) -> filter_ok f = true.
Proof.
  destruct f as [[|c x]|]; cbn; auto. unfold a_filter3. cbn [String.eqb orb starts]. destruct (Ascii.eqb_spec c "<"%char); cbn; [auto|].
  destruct (Ascii.eqb_spec c "/"%char); cbn; [auto|]. intros H. apply letter_alpha, H.
Qed.
Lemma cont_ok_of x : good_place (a_content x) -> cont_ok (Some x) = true.
Proof.
  destruct x as [|c x]; cbn; auto. unfold a_content. cbn [String.eqb orb starts]. destruct (Ascii.eqb_spec c "<"%char); cbn; [auto|].
  intros H. apply letter_alpha, H.
Qed.
Lemma source_of d c : good_place (a_source d c) -> cont_ok c = true.
Proof. destruct c as [x|]; [apply cont_ok_of|reflexivity]. Qed.
Lemma nz_of n : n <> 0%N -> nz n = true.
Proof. unfold nz. intros H. destruct (N.eqb_spec n 0); [contradiction|reflexivity]. Qed.
Theorem c73_accepted : forall a, good (asked a) -> construct a = Some a.
Proof.
  intros a H. destruct a; cbn [construct]; try reflexivity;
    repeat (match goal with t : trig |- _ => destruct t | t : mtrig |- _ => destruct t end); cbn [asked good] in H;
    repeat (match type of H with _ /\ _ => let X := fresh in destruct H as [X H]; rewrite (nz_of _ X) end);
    rewrite ?(filter_ok_of _ H), ?(filter_ok_of3 _ H), ?(cont_ok_of _ H), ?(source_of _ _ H), ?(nz_of _ H); reflexivity.
Qed.

(** Whatever is sent for a request that a constructor made is such a request. *)
Theorem c73_sent_partial : forall running mods root acc a r t,
  construct a = Some r -> send_tree running mods root acc r = Some t -> origins_fine acc r -> exists q, says t = Some q /\ good q.
Proof.
  intros running mods root acc a r t C H O. exists (asked r). split; [exact (c72_sent_partial _ _ _ _ _ _ H O) | exact (proj2 (c73_constructed _ _ C))].
Qed.

(** nc_rpc_modifypush_periodic() (line 762) does not check the period, which nc_rpc_establishpush_periodic() (line 646) does. *)
Theorem c73_period_refuted : exists r t id s f b a,
  construct r = Some r /\ send_tree true (fun _ => true) (fun _ _ => true) (fun _ _ => true) r = Some t
  /\ says t = Some (RModifyPush id s f b (EveryPeriod 0 a)).
Proof.
  exists (ModPush 7 "ietf-datastores:operational" None None (MPeriodic 0 None)). repeat eexists; vm_compute; reflexivity.
Qed.

(* ------------------------------------------------------------------ *)
(** ** Cases *)

Definition yes : list node -> call -> bool := fun _ _ => true.
Example c72_get_config :
  send_tree true (fun _ => true) (fun _ _ => true) yes (GetConfig DsRunning (Some "/a:b") WdTrim)
  = Some (Inner nc "get-config" [Inner nc "source" [Leaf nc "running" ""];
      AnyN nc "filter" None [("ietf-netconf:type", "xpath"); ("ietf-netconf:select", "/a:b")]; Leaf ncwd "with-defaults" "trim"]).
Proof. vm_compute. reflexivity. Qed.
Example c72_get_config_says :
  says (Inner nc "get-config" [AnyN nc "filter" None [("ietf-netconf:type", "xpath"); ("ietf-netconf:select", "/a:b")];
      Leaf ncwd "with-defaults" "trim"; Inner nc "source" [Leaf nc "running" ""]])
  = Some (RGetConfig (InStore "running") (Some (FXPath "/a:b")) (Some "trim")).
Proof. vm_compute. reflexivity. Qed.
Example c72_missing_module :
  send_tree true (fun m => negb (String.eqb m ncwd)) (fun _ _ => true) yes (GetConfig DsRunning None WdTrim) = None.
Proof. vm_compute. reflexivity. Qed.
Example c72_push :
  exists t, send_tree true (fun _ => true) (fun _ _ => true) yes
      (EstPush "ietf-datastores:running" (Some "ref") None None (OnChange 100 true ["create"; "delete"])) = Some t
    /\ says t = Some (REstablishPush "ietf-datastores:running" (Some (FName "ref")) None None (WhenChanged (Some 100%N) (Some true) ["create"; "delete"])).
Proof. eexists. split; vm_compute; reflexivity. Qed.
(** A refused excluded-change stops the request, since nothing follows its loop. *)
Example c72_push_refused :
  send_tree true (fun _ => true) (fun _ _ => true) (fun _ c => match c with CLeaf _ _ "excluded-change" "delete" => false | _ => true end)
      (EstPush "ietf-datastores:running" None None None (OnChange 0 true ["create"; "delete"; "move"])) = None.
Proof. vm_compute. reflexivity. Qed.
Example c73_refused : construct (Get (Some "7") WdUnknown) = None /\ construct (Get (Some "a:b") WdUnknown) = Some (Get (Some "a:b") WdUnknown).
Proof. split; reflexivity. Qed.

Print Assumptions c72_sent_partial.
Print Assumptions c72_others.
Print Assumptions c72_unambiguous.
Print Assumptions c72_sent_all.
Print Assumptions c72_refuted.
Print Assumptions c72_all_refuted.
Print Assumptions c72_buffer.
Print Assumptions c73_constructed.
Print Assumptions c73_accepted.
Print Assumptions c73_sent_partial.
Print Assumptions c73_period_refuted.
