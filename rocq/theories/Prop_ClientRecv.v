(** Properties C22-C26: receiving replies and notifications on a client session, capabilities of the
    peer.  Specification, theorems, examples. *)
From Coq Require Import Ascii String NArith ZArith Bool Lia List.
From Verif Require Import Bytes CStr IoRead IoWrite Prop_Io ClientMsgs.
Import ListNotations.
Local Open Scope N_scope.

(* ================================================================== *)
(** * Specification *)

Definition contains (sub s : bytes) : Prop := exists a b, s = a ++ sub ++ b.

(** ** XML (XML 1.0, productions 3, 15, 22, 23, 40)
    What may precede the root element: white space, comments, the XML declaration.  The text of a comment
    has no "--" in it and does not end with "-". *)
Definition xml_space (c : ascii) : Prop := In (N_of_ascii c) [32; 9; 10; 13].
Definition comment_text (b : bytes) : Prop := ~ contains (bs "--") (b ++ bs "-").
Inductive prolog (ok : bytes -> Prop) : bytes -> Prop :=
| pro_nil : prolog ok []
| pro_space c p : xml_space c -> prolog ok p -> prolog ok (c :: p)
| pro_comment b p : comment_text b -> ok b -> prolog ok p -> prolog ok (bs "<!--" ++ b ++ bs "-->" ++ p)
| pro_decl b p : ~ contains (bs "?>") b -> prolog ok p -> prolog ok (bs "<?xml" ++ b ++ bs "?>" ++ p).

(** [root ok n m]: [m] is a prolog, all comments of which satisfy [ok], followed by an element with the tag
    name [n] (which may have a namespace prefix). *)
Definition ends_name (c : ascii) : Prop := xml_space c \/ c = "/"%char \/ c = ">"%char.
Definition tag_name (n : bytes) : Prop :=
  n <> [] /\ (forall c, In c n -> ~ ends_name c) /\ hd_error n <> Some "!"%char /\ hd_error n <> Some "?"%char.
Definition root (ok : bytes -> Prop) (n m : bytes) : Prop :=
  exists p c r, prolog ok p /\ tag_name n /\ ends_name c /\ m = p ++ bs "<" ++ n ++ c :: r.

(** The name without the namespace prefix. *)
Definition local (n l : bytes) : Prop := ~ In ":"%char l /\ (n = l \/ exists p, n = p ++ bs ":" ++ l).

Definition element (t : mtype) : bytes := match t with Reply => bs "rpc-reply" | Notif => bs "notification" end.

Definition any_comment (b : bytes) : Prop := True.
(** Comments that do not start with ">" or "->" (both are allowed in XML). *)
Definition ordinary_comment (b : bytes) : Prop := ~ prefix (bs ">") b /\ ~ prefix (bs "->") b.

(** ** What the peer sends, as seen by successive reads of the client *)
Inductive item := Arrives (t : mtype) (m : bytes) | Other (m : bytes) | Nothing | Broken.
Definition item_ok (i : item) : Prop :=
  match i with
  | Arrives t m => root ordinary_comment (element t) m
  | Other m => exists n, root ordinary_comment n m /\ ~ prefix (element Reply) n /\ ~ prefix (element Notif) n
  | _ => True
  end.
Definition to_rd (i : item) : rd :=
  match i with Arrives _ m | Other m => RdMsg m | Nothing => RdTimeout | Broken => RdErr end.

(** Messages of a type among the arrived ones, among those handed to callers, in the buffer. *)
Definition arrived (t : mtype) (l : list item) : list bytes :=
  flat_map (fun i => match i with Arrives t' m => if mtype_eqb t' t then [m] else [] | _ => [] end) l.
Definition handed (t : mtype) (l : list (code * option bytes)) : list bytes :=
  flat_map (fun o => match o, t with
                     | (CReply, Some m), Reply | (CReplyErrMsgid, Some m), Reply | (CNotif, Some m), Notif => [m]
                     | _, _ => []
                     end) l.
Definition buffered (t : mtype) (b : buffer) : list bytes :=
  flat_map (fun x => if mtype_eqb (fst x) t then [snd x] else []) b.

Inductive subseq {A} : list A -> list A -> Prop :=
| sub_nil : subseq [] []
| sub_skip x a b : subseq a b -> subseq a (x :: b)
| sub_take x a b : subseq a b -> subseq (x :: a) (x :: b).

(** ** Message ids *)
Definition plain_number (v : bytes) : Prop := v <> [] /\ forall c, In c v -> 48 <= N_of_ascii c <= 57.

(* ================================================================== *)
(** * C24: message type *)

Lemma xml_space_is c : xml_space c -> is_space c = true.
Proof.
  unfold xml_space, is_space. cbn [In]. intros H.
  destruct H as [<-|[<-|[<-|[<-|[]]]]]; reflexivity.
Qed.

Lemma skip_space_ws s : skip_space s = s \/ exists c r, s = c :: r /\ is_space c = true /\ skip_space s = skip_space r.
Proof. destruct s as [|c r]; [left; reflexivity|]. cbn [skip_space]. destruct (is_space c) eqn:E; [right; eauto|left; reflexivity]. Qed.

Lemma skip_space_len s : (length (skip_space s) <= length s)%nat.
Proof. induction s as [|c s IH]; [cbn; lia|]. cbn [skip_space]. destruct (is_space c); cbn [length]; lia. Qed.

Lemma strstr_len s pat x : strstr s pat = Some x -> (length x <= length s)%nat.
Proof.
  revert x; induction s as [|c s IH]; intros x; cbn [strstr].
  - destruct (prefixb pat []); [intros [= <-]; lia|discriminate].
  - destruct (prefixb pat (c :: s)); [intros [= <-]; lia|]. intros H. apply IH in H. cbn [length]. lia.
Qed.

Lemma gmt_fuel f1 : forall f2 s, (length s < f1)%nat -> (length s < f2)%nat -> gmt f1 s = gmt f2 s.
Proof.
  induction f1 as [|f1 IH]; intros f2 s H1 H2; [lia|]. destruct f2 as [|f2]; [lia|]. cbn [gmt].
  destruct s as [|c0 s0] eqn:Es; [reflexivity|]. rewrite <- Es in *. pose proof (skip_space_len s) as Hl.
  destruct (skip_space s) as [|c r]; [reflexivity|]. cbn [length] in Hl.
  destruct (Ascii.eqb c LT); [|reflexivity].
  destruct (strncmp0 r (bs "!--") 3).
  { destruct (strstr r (bs "-->")) as [x|] eqn:E; [|reflexivity]. apply strstr_len in E.
    apply IH; rewrite skipn_length; lia. }
  destruct (strncmp0 r (bs "?xml") 4); [|reflexivity].
  destruct (strstr r (bs "?>")) as [x|] eqn:E; [|reflexivity]. apply strstr_len in E.
  apply IH; rewrite skipn_length; lia.
Qed.

(** White space before a message does not change its type (unless nothing follows). *)
Lemma gmt_space c s : is_space c = true -> s <> [] -> get_msg_type (c :: s) = get_msg_type s.
Proof.
  intros Hc Hs. unfold get_msg_type. rewrite (gmt_fuel (S (length s)) (S (length (c :: s)))) by (cbn [length]; lia).
  cbn [gmt length]. destruct s as [|x s]; [contradiction|].
  replace (skip_space (c :: x :: s)) with (skip_space (x :: s)) by (cbn [skip_space]; now rewrite Hc).
  reflexivity.
Qed.

Lemma lt_not_space : is_space LT = false. Proof. reflexivity. Qed.

Lemma gmt_lt r : get_msg_type (LT :: r) =
  if strncmp0 r (bs "!--") 3 then
    match strstr r (bs "-->") with Some x => get_msg_type (skipn 3 x) | None => None end
  else if strncmp0 r (bs "?xml") 4 then
    match strstr r (bs "?>") with Some x => get_msg_type (skipn 2 x) | None => None end
  else if strncmp0 r (bs "rpc-reply") 9 then Some Reply
  else if strncmp0 r (bs "notification") 12 then Some Notif else None.
Proof.
  unfold get_msg_type at 1. cbn [gmt skip_space]. rewrite lt_not_space. cbn [length].
  change (Ascii.eqb LT LT) with true. cbv iota.
  destruct (strncmp0 r (bs "!--") 3).
  { destruct (strstr r (bs "-->")) as [x|] eqn:E; [|reflexivity]. apply strstr_len in E. unfold get_msg_type.
    apply gmt_fuel; rewrite ?skipn_length; lia. }
  destruct (strncmp0 r (bs "?xml") 4); [|reflexivity].
  destruct (strstr r (bs "?>")) as [x|] eqn:E; [|reflexivity]. apply strstr_len in E. unfold get_msg_type.
  apply gmt_fuel; rewrite ?skipn_length; lia.
Qed.

Lemma strstr_hit s pat : prefixb pat s = true -> strstr s pat = Some s.
Proof. destruct s; cbn [strstr]; intros ->; reflexivity. Qed.

Lemma strstr_miss c s pat : prefixb pat (c :: s) = false -> strstr (c :: s) pat = strstr s pat.
Proof. cbn [strstr]. intros ->. reflexivity. Qed.

Lemma strstr_comment_text b p : comment_text b -> strstr (b ++ bs "-->" ++ p) (bs "-->") = Some (bs "-->" ++ p).
Proof.
  induction b as [|x b IH]; intros Hb.
  - apply strstr_hit. reflexivity.
  - cbn [app]. rewrite strstr_miss.
    + apply IH. intros (a & z & H). apply Hb. exists (x :: a), z. cbn [app]. now rewrite H.
    + cbn [prefixb bs list_ascii_of_string]. destruct (Ascii.eqb_spec "-" x) as [<-|N]; [|reflexivity].
      cbn [andb]. destruct b as [|y b]; cbn [app].
      * exfalso. apply Hb. exists [], []. reflexivity.
      * destruct (Ascii.eqb_spec "-" y) as [<-|N]; [|reflexivity].
        exfalso. apply Hb. exists [], (b ++ bs "-"). reflexivity.
Qed.

Lemma strstr_comment b p : comment_text b -> ordinary_comment b ->
  strstr (bs "!--" ++ b ++ bs "-->" ++ p) (bs "-->") = Some (bs "-->" ++ p).
Proof.
  intros Hb [H1 H2]. change (bs "!--") with ["!"%char; "-"%char; "-"%char]. cbn [app].
  rewrite strstr_miss by reflexivity.
  destruct b as [|x b].
  { cbn [app]. do 2 rewrite strstr_miss by reflexivity. apply strstr_hit. reflexivity. }
  cbn [app]. rewrite strstr_miss.
  2:{ cbn [prefixb bs list_ascii_of_string]. change (Ascii.eqb "-" "-") with true. cbn [andb].
      destruct (Ascii.eqb_spec ">" x) as [<-|N]; [|reflexivity]. exfalso. apply H1. exists b. reflexivity. }
  rewrite strstr_miss.
  2:{ cbn [prefixb bs list_ascii_of_string]. change (Ascii.eqb "-" "-") with true. cbn [andb].
      destruct (Ascii.eqb_spec "-" x) as [<-|N]; [|reflexivity]. cbn [andb].
      destruct b as [|y b]; cbn [app].
      - change (list_ascii_of_string "-->") with (bs "-->"). reflexivity.
      - destruct (Ascii.eqb_spec ">" y) as [<-|N]; [|reflexivity]. exfalso. apply H2. exists b. reflexivity. }
  apply (strstr_comment_text (x :: b) p Hb).
Qed.

Lemma strstr_decl_text b p : ~ contains (bs "?>") b -> strstr (b ++ bs "?>" ++ p) (bs "?>") = Some (bs "?>" ++ p).
Proof.
  induction b as [|x b IH]; intros Hb.
  - apply strstr_hit. reflexivity.
  - cbn [app]. rewrite strstr_miss.
    + apply IH. intros (a & z & H). apply Hb. exists (x :: a), z. cbn [app]. now rewrite H.
    + cbn [prefixb bs list_ascii_of_string]. destruct (Ascii.eqb_spec "?" x) as [<-|N]; [|reflexivity].
      cbn [andb]. destruct b as [|y b]; cbn [app]; [reflexivity|].
      destruct (Ascii.eqb_spec ">" y) as [<-|N]; [|reflexivity].
      exfalso. apply Hb. exists [], b. reflexivity.
Qed.

Lemma strstr_decl b p : ~ contains (bs "?>") b ->
  strstr (bs "?xml" ++ b ++ bs "?>" ++ p) (bs "?>") = Some (bs "?>" ++ p).
Proof.
  intros Hb. change (bs "?xml") with ["?"%char; "x"%char; "m"%char; "l"%char]. cbn [app].
  do 3 rewrite strstr_miss by reflexivity. rewrite strstr_miss by reflexivity. now apply strstr_decl_text.
Qed.

Lemma gmt_prolog p s : prolog ordinary_comment p -> s <> [] -> get_msg_type (p ++ s) = get_msg_type s.
Proof.
  intros Hp Hs. induction Hp as [|c p Hc Hp IH|b p Hb Ho Hp IH|b p Hb Hp IH].
  - reflexivity.
  - cbn [app]. rewrite gmt_space; [exact IH|now apply xml_space_is|].
    destruct p; [exact Hs|discriminate].
  - change (bs "<!--") with (LT :: bs "!--"). rewrite <- !app_assoc. cbn [app]. rewrite gmt_lt.
    change (strncmp0 ("!"%char :: "-"%char :: "-"%char :: b ++ bs "-->" ++ p ++ s) (bs "!--") 3) with true.
    cbv iota.
    change ("!"%char :: "-"%char :: "-"%char :: b ++ bs "-->" ++ p ++ s) with (bs "!--" ++ b ++ bs "-->" ++ (p ++ s)).
    rewrite strstr_comment by assumption. exact IH.
  - change (bs "<?xml") with (LT :: bs "?xml"). rewrite <- !app_assoc. cbn [app]. rewrite gmt_lt.
    change (strncmp0 ("?"%char :: "x"%char :: "m"%char :: "l"%char :: b ++ bs "?>" ++ p ++ s) (bs "!--") 3) with false.
    change (strncmp0 ("?"%char :: "x"%char :: "m"%char :: "l"%char :: b ++ bs "?>" ++ p ++ s) (bs "?xml") 4) with true.
    cbv iota.
    change ("?"%char :: "x"%char :: "m"%char :: "l"%char :: b ++ bs "?>" ++ p ++ s) with (bs "?xml" ++ b ++ bs "?>" ++ (p ++ s)).
    rewrite strstr_decl by assumption. exact IH.
Qed.

(** A fixed string without a name-ending character is a prefix of name, delimiter, rest exactly when it is
    a prefix of the name. *)
Lemma prefix_name w n c r : (forall x, In x w -> x <> c) -> prefixb w (n ++ c :: r) = prefixb w n.
Proof.
  revert n; induction w as [|x w IH]; intros n Hw; [reflexivity|].
  destruct n as [|y n]; cbn [app prefixb].
  - destruct (Ascii.eqb_spec x c) as [->|N]; [|reflexivity]. exfalso. apply (Hw c (or_introl eq_refl) eq_refl).
  - rewrite IH; [reflexivity|]. intros z Hz. apply Hw. right; exact Hz.
Qed.

Lemma name_chars w c : (w = bs "rpc-reply" \/ w = bs "notification") -> ends_name c -> forall x, In x w -> x <> c.
Proof.
  intros Hw Hc x Hx <-.
  assert (Hb : existsb (fun y => Ascii.eqb y x) w = true).
  { apply existsb_exists. exists x. split; [exact Hx|apply Ascii.eqb_refl]. }
  unfold ends_name, xml_space in Hc. cbn [In] in Hc.
  assert (Hcase : N_of_ascii x = 32 \/ N_of_ascii x = 9 \/ N_of_ascii x = 10 \/ N_of_ascii x = 13 \/ N_of_ascii x = 47 \/ N_of_ascii x = 62).
  { destruct Hc as [[H|[H|[H|[H|[]]]]]|[-> | ->]]; auto 10. }
  rewrite <- (ascii_N_embedding x) in Hb.
  destruct Hw as [-> | ->]; destruct Hcase as [E|[E|[E|[E|[E|E]]]]]; rewrite E in Hb; vm_compute in Hb; discriminate.
Qed.

Lemma gmt_root n m : root ordinary_comment n m ->
  get_msg_type m = if prefixb (bs "rpc-reply") n then Some Reply
                   else if prefixb (bs "notification") n then Some Notif else None.
Proof.
  intros (p & c & r & Hp & (Hn & Hch & H1 & H2) & Hc & ->).
  rewrite gmt_prolog; [|exact Hp|discriminate].
  change (bs "<") with [LT]. cbn [app]. rewrite gmt_lt.
  change 3%nat with (length (bs "!--")). change 4%nat with (length (bs "?xml")).
  change 9%nat with (length (bs "rpc-reply")). change 12%nat with (length (bs "notification")).
  rewrite !strncmp0_prefix_r.
  rewrite (prefix_name (bs "rpc-reply") n c r) by (apply name_chars; auto).
  rewrite (prefix_name (bs "notification") n c r) by (apply name_chars; auto).
  destruct n as [|x n]; [contradiction|]. cbn [hd_error] in H1, H2. cbn [app prefixb bs list_ascii_of_string].
  destruct (Ascii.eqb_spec "!" x) as [<-|N1]; [contradiction|].
  destruct (Ascii.eqb_spec "?" x) as [<-|N2]; [contradiction|]. reflexivity.
Qed.

(** For every message whose root element is not namespace-prefixed, after any white space, XML declaration
    and comments (not starting with ">" or "->"): a root named rpc-reply is a reply, a root named
    notification is a notification; any other root whose name does not merely start with these is neither.
    What is missing from C24: see the three refutations below. *)
Theorem c24_type_partial : forall n m, root ordinary_comment n m ->
  (n = bs "rpc-reply" -> get_msg_type m = Some Reply) /\
  (n = bs "notification" -> get_msg_type m = Some Notif) /\
  (get_msg_type m = Some Reply -> exists x, n = bs "rpc-reply" ++ x) /\
  (get_msg_type m = Some Notif -> exists x, n = bs "notification" ++ x).
Proof.
  intros n m H. rewrite (gmt_root n m H). repeat split.
  - intros ->. reflexivity.
  - intros ->. reflexivity.
  - destruct (prefixb (bs "rpc-reply") n) eqn:E; [intros _; now apply prefixb_spec|].
    destruct (prefixb (bs "notification") n); discriminate.
  - destruct (prefixb (bs "rpc-reply") n) eqn:E; [discriminate|].
    destruct (prefixb (bs "notification") n) eqn:E2; [intros _; now apply prefixb_spec|discriminate].
Qed.

Lemma root_intro p n c r : prolog any_comment p -> tag_name n -> ends_name c -> root any_comment n (p ++ bs "<" ++ n ++ c :: r).
Proof. intros. exists p, c, r. auto. Qed.

Ltac in_name := let c := fresh in let H := fresh in let K := fresh in
  intros c H K; unfold ends_name, xml_space in K; cbn [In bs list_ascii_of_string] in H, K;
  repeat (destruct H as [<-|H]; [vm_compute in K; intuition discriminate|]); destruct H.

(** A comment starting with ">" (allowed in XML) is taken to have ended: a reply whose first comment is
    <!--><notification>--> is taken for a notification. *)
Theorem c24_comment_refuted : exists m,
  root any_comment (bs "rpc-reply") m /\ get_msg_type m = Some Notif.
Proof.
  exists ((bs "<!--" ++ bs "><notification>" ++ bs "-->" ++ []) ++ bs "<" ++ bs "rpc-reply" ++ ">"%char :: bs "<ok/></rpc-reply>").
  split; [|vm_compute; reflexivity]. apply root_intro.
  - apply pro_comment; [|exact I|constructor]. intros (a & b & H).
    change (bs "><notification>" ++ bs "-") with (bs "><notification>-") in H.
    do 16 (destruct a as [|? a]; [discriminate H|injection H as _ H]). destruct a; discriminate.
  - split; [discriminate|split; [in_name|split; discriminate]].
  - right; right; reflexivity.
Qed.

(** A reply with a namespace prefix on its root element is rejected. *)
Theorem c24_prefix_refuted : exists n m,
  local n (bs "rpc-reply") /\ root ordinary_comment n m /\ get_msg_type m = None.
Proof.
  exists (bs "nc:rpc-reply"), ([] ++ bs "<" ++ bs "nc:rpc-reply" ++ " "%char :: bs "xmlns:nc=""urn:ietf:params:xml:ns:netconf:base:1.0""/>").
  split; [|split].
  - split; [intros H; cbn [In bs list_ascii_of_string] in H; intuition discriminate|right; exists (bs "nc"); reflexivity].
  - exists [], " "%char. eexists. split; [constructor|]. split; [|split; [left; left; reflexivity|reflexivity]].
    split; [discriminate|split; [in_name|split; discriminate]].
  - vm_compute. reflexivity.
Qed.

(** An element whose name only starts with "rpc-reply" is taken for a reply. *)
Theorem c24_longer_name_refuted : exists n m,
  root ordinary_comment n m /\ ~ local n (bs "rpc-reply") /\ get_msg_type m = Some Reply.
Proof.
  exists (bs "rpc-reply-x"), ([] ++ bs "<" ++ bs "rpc-reply-x" ++ ">"%char :: bs "</rpc-reply-x>").
  split; [|split].
  - exists [], ">"%char. eexists. split; [constructor|]. split; [|split; [right; right; reflexivity|reflexivity]].
    split; [discriminate|split; [in_name|split; discriminate]].
  - intros [_ [H|[p H]]]; [discriminate|].
    assert (Hin : In ":"%char (bs "rpc-reply-x")) by (rewrite H; apply in_or_app; right; left; reflexivity).
    cbn [In bs list_ascii_of_string] in Hin. intuition discriminate.
  - vm_compute. reflexivity.
Qed.

(** A message of white space, a declaration, two comments and a root element. *)
Example c24_example :
  let m := bs "<?xml version=""1.0"" encoding=""UTF-8""?>" ++ [NL] ++ bs "<!-- a > b --> <!----><rpc-reply message-id=""1""/>" in
  root ordinary_comment (bs "rpc-reply") m /\ get_msg_type m = Some Reply.
Proof.
  cbv zeta. split; [|vm_compute; reflexivity].
  exists (bs "<?xml" ++ bs " version=""1.0"" encoding=""UTF-8""" ++ bs "?>" ++ NL :: bs "<!--" ++ bs " a > b " ++ bs "-->" ++ " "%char :: bs "<!--" ++ [] ++ bs "-->" ++ []),
    " "%char, (bs "message-id=""1""/>").
  split; [|split; [|split; [left; left; reflexivity|reflexivity]]].
  2:{ split; [discriminate|split; [in_name|split; discriminate]]. }
  apply pro_decl.
  { intros (a & b & H). change (bs " version=""1.0"" encoding=""UTF-8""") with (bs " version=""1.0"" encoding=""UTF-8""") in H.
    do 35 (destruct a as [|? a]; [discriminate H|injection H as _ H || discriminate H]). }
  apply pro_space; [unfold xml_space; cbn; auto|].
  apply pro_comment.
  { intros (a & b & H). do 10 (destruct a as [|? a]; [discriminate H|injection H as _ H || discriminate H]). }
  { split; intros [r H]; discriminate H. }
  apply pro_space; [unfold xml_space; cbn; auto|].
  apply pro_comment.
  { intros (a & b & H). do 3 (destruct a as [|? a]; [discriminate H|injection H as _ H || discriminate H]). }
  { split; intros [r H]; discriminate H. }
  constructor.
Qed.

(* ================================================================== *)
(** * C22: replies and message ids *)

Lemma recv_msg_some t lk mem b w c m b' w' : recv_msg t lk mem b w = Ret (c, Some m, b', w') -> c = code_of t.
Proof.
  unfold recv_msg. destruct lk; try discriminate.
  destruct (take_type t b) as [[x bx]|]; [intros H; now injection H|].
  destruct w as [|[| | |x] w]; try discriminate.
  destruct (get_msg_type x) as [t'|]; [|discriminate].
  destruct (mtype_eqb t' t); [intros H; now injection H|]. destruct mem; discriminate.
Qed.

Lemma recv_msg_none t lk mem b w b' w' : recv_msg t lk mem b w <> Ret (code_of t, None, b', w').
Proof.
  unfold recv_msg. destruct lk; try (destruct t; discriminate).
  destruct (take_type t b) as [[x bx]|]; [discriminate|].
  destruct w as [|[| | |x] w]; try (destruct t; discriminate).
  destruct (get_msg_type x) as [t'|]; [|destruct t; discriminate].
  destruct (mtype_eqb t' t) eqn:E; [discriminate|].
  destruct mem; destruct t, t'; cbn in E |- *; discriminate.
Qed.

Lemma find_app_none {A} (f : A -> bool) a b : (forall x, In x a -> f x = false) -> find f (a ++ b) = find f b.
Proof.
  induction a as [|x a IH]; intros H; [reflexivity|]. cbn [app find].
  rewrite (H x (or_introl eq_refl)). apply IH. intros y Hy. apply H. right; exact Hy.
Qed.

Lemma check_first a1 v a2 id : (forall x, In x a1 -> fst x <> MESSAGE_ID) ->
  recv_reply_check_msgid (a1 ++ (MESSAGE_ID, v) :: a2) id = if strtoul v =? id then CReply else CReplyErrMsgid.
Proof.
  intros H. unfold recv_reply_check_msgid. rewrite find_app_none.
  - cbn [find fst]. unfold streq. now rewrite beqb_refl.
  - intros x Hx. unfold streq. destruct (beqb (fst x) MESSAGE_ID) eqn:E; [|reflexivity].
    apply beqb_spec in E. exfalso. exact (H x Hx E).
Qed.

Lemma check_missing a id : (forall x, In x a -> fst x <> MESSAGE_ID) -> recv_reply_check_msgid a id = CReplyErrMsgid.
Proof.
  intros H. unfold recv_reply_check_msgid. rewrite <- (app_nil_r a), find_app_none; [reflexivity|].
  intros x Hx. unfold streq. destruct (beqb (fst x) MESSAGE_ID) eqn:E; [|reflexivity].
  apply beqb_spec in E. exfalso. exact (H x Hx E).
Qed.

Lemma first_attr (a : attrs) :
  (forall x, In x a -> fst x <> MESSAGE_ID) \/
  exists a1 v a2, a = a1 ++ (MESSAGE_ID, v) :: a2 /\ forall x, In x a1 -> fst x <> MESSAGE_ID.
Proof.
  induction a as [|[n v] a IH]; [left; intros x []|].
  destruct (beqb n MESSAGE_ID) eqn:E.
  - apply beqb_spec in E. subst n. right. exists [], v, a. split; [reflexivity|intros x []].
  - assert (N : n <> MESSAGE_ID) by (intros ->; rewrite beqb_refl in E; discriminate).
    destruct IH as [IH|(a1 & w & a2 & -> & IH)].
    + left. intros x [<-|Hx]; [exact N|now apply IH].
    + right. exists ((n, v) :: a1), w, a2. split; [reflexivity|]. intros x [<-|Hx]; [exact N|now apply IH].
Qed.

Lemma strtoul_plain v : plain_number v -> strtoul v = N.min (decimal v) 18446744073709551615.
Proof.
  intros [Hne Hd].
  assert (A : all_digits v) by (intros c Hc; apply is_digit_iff, Hd, Hc).
  rewrite <- (app_nil_r v) at 1. rewrite strtoul_digits; [|exact Hne|exact A|discriminate].
  rewrite (decimal_val v A). reflexivity.
Qed.

(** Results of nc_recv_reply() when libyang parses the envelope of the message into attributes [a]: for
    every session state and everything that can be read,
    - the result is a reply only if [a] has a message-id attribute; if the first one is a plain number of less
      than 2^64, it is the expected id;
    - no message-id, or a first one that is another plain number of less than 2^64: the message is reported as
      having a wrong id;
    - the expected id as the client wrote it in the request: the message is reported as the reply. *)
Theorem c22_msgid_partial : forall parse id lk mem b w c m b' w' a,
  id < 18446744073709551616 ->
  nc_recv_reply true true parse id lk mem b w = Ret (c, Some m, b', w') ->
  p_envp (parse m) = Some a ->
  (c = CReply \/ c = CReplyErrMsgid) /\
  (c = CReply -> exists a1 v a2, a = a1 ++ (bs "message-id", v) :: a2 /\
     (plain_number v -> decimal v < 18446744073709551616 -> decimal v = id)) /\
  ((forall x, In x a -> fst x <> bs "message-id") -> c = CReplyErrMsgid) /\
  (forall a1 v a2, a = a1 ++ (bs "message-id", v) :: a2 -> (forall x, In x a1 -> fst x <> bs "message-id") ->
     (plain_number v -> decimal v < 18446744073709551616 -> decimal v <> id -> c = CReplyErrMsgid) /\
     (v = dec id -> c = CReply)).
Proof.
  intros parse id lk mem b w c m b' w' a Hid H Ha. unfold nc_recv_reply, recv_reply in H. cbn [negb] in H.
  destruct (recv_msg Reply lk mem b w) as [[[[c0 m0] b0] w0]|] eqn:E; [|discriminate].
  assert (G : c = recv_reply_check_msgid a id).
  { destruct c0, m0 as [m0|]; try discriminate H.
    destruct (p_envp (parse m0)) as [a0|] eqn:Ea.
    - injection H as <- <- <- <-. rewrite Ha in Ea. now injection Ea as <-.
    - destruct (p_ok (parse m0)); [|discriminate H]. injection H as <- <- <- <-. rewrite Ha in Ea. discriminate. }
  clear H E. change (bs "message-id") with MESSAGE_ID.
  assert (P : forall v, plain_number v -> decimal v < 18446744073709551616 -> strtoul v = decimal v).
  { intros v Hv Hlt. rewrite (strtoul_plain v Hv). lia. }
  split; [|split; [|split]].
  - subst c. unfold recv_reply_check_msgid. destruct (find _ a) as [[n v]|]; [destruct (strtoul v =? id)|]; auto.
  - intros ->. destruct (first_attr a) as [Hn|(a1 & v & a2 & -> & Hn)].
    + rewrite (check_missing a id Hn) in G. discriminate.
    + exists a1, v, a2. split; [reflexivity|]. intros Hv Hlt. rewrite (check_first _ _ _ _ Hn) in G.
      rewrite (P v Hv Hlt) in G. destruct (N.eqb_spec (decimal v) id); [assumption|discriminate].
  - intros Hn. now rewrite G, (check_missing a id Hn).
  - intros a1 v a2 -> Hn. rewrite (check_first _ _ _ _ Hn) in G. split.
    + intros Hv Hlt Hne. rewrite (P v Hv Hlt) in G. destruct (N.eqb_spec (decimal v) id); [contradiction|assumption].
    + intros ->. rewrite <- (app_nil_r (dec id)), strtoul_dec in G; [|exact Hid|discriminate].
      now rewrite N.eqb_refl in G.
Qed.

(** A result "reply" always comes with a message, and (libyang having returned the envelope of every
    message it accepts) with one whose envelope was checked. *)
Theorem c22_reply_message : forall parse id lk mem b w m b' w',
  (forall x, p_ok (parse x) = true -> p_envp (parse x) <> None) ->
  nc_recv_reply true true parse id lk mem b w = Ret (CReply, m, b', w') ->
  exists x a, m = Some x /\ p_envp (parse x) = Some a.
Proof.
  intros parse id lk mem b w m b' w' Hp H. unfold nc_recv_reply, recv_reply in H. cbn [negb] in H.
  destruct (recv_msg Reply lk mem b w) as [[[[c0 m0] b0] w0]|] eqn:E; [|discriminate].
  destruct c0; try discriminate H. destruct m0 as [x|]; [|exfalso; exact (recv_msg_none Reply _ _ _ _ _ _ E)].
  destruct (p_envp (parse x)) as [a|] eqn:Ea.
  - exists x, a. split; [congruence|exact Ea].
  - destruct (p_ok (parse x)) eqn:Eo; [|discriminate H]. exfalso. exact (Hp x Eo Ea).
Qed.

(** The claim as stated is false: "7-other" (or " +7") is taken for the id 7. *)
Theorem c22_msgid_refuted : exists parse m,
  p_envp (parse m) = Some [(bs "message-id", bs "7-other")] /\
  nc_recv_reply true true parse 7 LkOk true [] [RdMsg m] = Ret (CReply, Some m, [], []).
Proof.
  exists (fun _ => mkP true (Some [(bs "message-id", bs "7-other")])), (bs "<rpc-reply message-id=""7-other""/>").
  split; [reflexivity|vm_compute; reflexivity].
Qed.

(** A reply to id 7 that arrives after a notification. *)
Example c22_example :
  let parse (_ : bytes) := mkP true (Some [(bs "xmlns", bs "urn:x"); (bs "message-id", bs "7")]) in
  nc_recv_reply true true parse 7 LkOk true [(Notif, bs "<notification/>")] [RdMsg (bs "<rpc-reply xmlns=""urn:x"" message-id=""7""/>")]
  = Ret (CReply, Some (bs "<rpc-reply xmlns=""urn:x"" message-id=""7""/>"), [(Notif, bs "<notification/>")], []).
Proof. vm_compute. reflexivity. Qed.

(* ================================================================== *)
(** * C23: order of replies and notifications *)

Lemma subseq_refl {A} (l : list A) : subseq l l.
Proof. induction l; [apply sub_nil|apply sub_take; auto]. Qed.
Lemma subseq_app {A} (a b c d : list A) : subseq a b -> subseq c d -> subseq (a ++ c) (b ++ d).
Proof. intros H1 H2. induction H1; cbn [app]; [exact H2|apply sub_skip; auto|apply sub_take; auto]. Qed.
Lemma subseq_nil {A} (l : list A) : subseq [] l.
Proof. induction l; [apply sub_nil|apply sub_skip; auto]. Qed.
Lemma subseq_trans {A} (a b c : list A) : subseq a b -> subseq b c -> subseq a c.
Proof.
  intros H1 H2. revert a H1. induction H2 as [|x b c H2 IH|x b c H2 IH]; intros a H1; [exact H1|apply sub_skip; auto|].
  inversion H1; subst; [apply sub_skip; auto|apply sub_take; auto].
Qed.

Lemma take_buffered t b m b' : take_type t b = Some (m, b') ->
  buffered t b = m :: buffered t b' /\ (forall t', mtype_eqb t t' = false -> buffered t' b = buffered t' b').
Proof.
  revert m b'; induction b as [|[t0 m0] b IH]; intros m b'; [discriminate|]. cbn [take_type].
  destruct (mtype_eqb t0 t) eqn:E.
  - intros H. injection H as <- <-. split; [cbn; now rewrite E|].
    intros t' Ht'. cbn. destruct t0, t, t'; cbn in *; try discriminate; reflexivity.
  - destruct (take_type t b) as [[x bx]|]; [|discriminate]. intros H. injection H as <- <-.
    destruct (IH _ _ eq_refl) as [I1 I2]. split.
    + unfold buffered. cbn [flat_map fst snd]. rewrite E. exact I1.
    + intros t' Ht'. unfold buffered. cbn [flat_map fst snd]. f_equal. apply I2, Ht'.
Qed.

Lemma take_none t b : take_type t b = None -> buffered t b = [].
Proof.
  induction b as [|[t0 m0] b IH]; [reflexivity|]. cbn [take_type]. destruct (mtype_eqb t0 t) eqn:E; [discriminate|].
  destruct (take_type t b) as [[x bx]|]; [discriminate|]. intros _. unfold buffered. cbn [flat_map fst snd]. rewrite E.
  now apply IH.
Qed.

Lemma item_type i m : item_ok i -> to_rd i = RdMsg m ->
  get_msg_type m = match i with Arrives t _ => Some t | _ => None end.
Proof.
  destruct i as [t x|x| |]; cbn [item_ok to_rd]; intros H E; try discriminate; injection E as ->.
  - rewrite (gmt_root _ _ H). destruct t; reflexivity.
  - destruct H as (n & Hr & N1 & N2). rewrite (gmt_root _ _ Hr).
    destruct (prefixb (bs "rpc-reply") n) eqn:E1; [exfalso; apply N1, prefixb_spec; exact E1|].
    destruct (prefixb (bs "notification") n) eqn:E2; [exfalso; apply N2, prefixb_spec; exact E2|reflexivity].
Qed.

(** What [recv_msg] does to the buffer and the wire. *)
Lemma recv_msg_step want lk mem b its c m b' w' :
  Forall item_ok its -> recv_msg want lk mem b (map to_rd its) = Ret (c, m, b', w') ->
  exists used rest, its = used ++ rest /\ w' = map to_rd rest /\
    forall t, let got := match m with Some x => if mtype_eqb want t then [x] else [] | None => [] end in
      subseq (got ++ buffered t b') (buffered t b ++ arrived t used) /\
      (c <> CError -> got ++ buffered t b' = buffered t b ++ arrived t used).
Proof.
  intros Hok H. unfold recv_msg in H.
  assert (Stay : forall c0, Ret (c0, None, b, map to_rd its) = Ret (c, m, b', w') ->
    exists used rest, its = used ++ rest /\ w' = map to_rd rest /\
    forall t, let got := match m with Some x => if mtype_eqb want t then [x] else [] | None => [] end in
      subseq (got ++ buffered t b') (buffered t b ++ arrived t used) /\
      (c <> CError -> got ++ buffered t b' = buffered t b ++ arrived t used)).
  { intros c0 Hx. injection Hx as <- <- <- <-. exists [], its. split; [reflexivity|split; [reflexivity|]].
    intros t got. subst got. cbn [app arrived flat_map]. rewrite app_nil_r. split; [apply subseq_refl|reflexivity]. }
  destruct lk; [|eapply Stay; exact H..].
  destruct (take_type want b) as [[x bx]|] eqn:Et.
  { injection H as <- <- <- <-. destruct (take_buffered _ _ _ _ Et) as [T1 T2].
    exists [], its. split; [reflexivity|split; [reflexivity|]]. intros t got. subst got.
    cbn [arrived flat_map]. rewrite app_nil_r. destruct (mtype_eqb want t) eqn:Ew.
    - assert (want = t) by (destruct want, t; try discriminate; reflexivity). subst t. rewrite T1.
      split; [apply subseq_refl|reflexivity].
    - rewrite (T2 t Ew). split; [apply subseq_refl|reflexivity]. }
  pose proof (take_none _ _ Et) as Hnone.
  destruct its as [|i its]; cbn [map] in H; [eapply Stay; exact H|].
  inversion Hok as [|? ? Hi Hok']; subst.
  assert (Lost : forall c0, c0 = CError \/ arrived Reply [i] = [] /\ arrived Notif [i] = [] ->
    Ret (c0, None, b, map to_rd its) = Ret (c, m, b', w') ->
    exists used rest, i :: its = used ++ rest /\ w' = map to_rd rest /\
    forall t, let got := match m with Some x => if mtype_eqb want t then [x] else [] | None => [] end in
      subseq (got ++ buffered t b') (buffered t b ++ arrived t used) /\
      (c <> CError -> got ++ buffered t b' = buffered t b ++ arrived t used)).
  { intros c0 Hc Hx. injection Hx as <- <- <- <-. exists [i], its. split; [reflexivity|split; [reflexivity|]].
    intros t got. subst got. cbn [app]. split.
    - rewrite <- (app_nil_r (buffered t b)) at 1. apply subseq_app; [apply subseq_refl|apply subseq_nil].
    - intros Hne. destruct Hc as [->|[A1 A2]]; [contradiction|].
      replace (arrived t [i]) with (@nil bytes) by (destruct t; auto). now rewrite app_nil_r. }
  destruct (to_rd i) as [| | |x] eqn:Er.
  - eapply Lost; [|exact H]. right. destruct i; try discriminate Er. split; reflexivity.
  - eapply Lost; [|exact H]. left; reflexivity.
  - discriminate H.
  - pose proof (item_type i x Hi Er) as Hty. rewrite Hty in H.
    destruct i as [t0 x0|x0| |]; try discriminate Er; cbn [to_rd] in Er; injection Er as ->.
    2:{ eapply Lost; [|exact H]. left; reflexivity. }
    destruct (mtype_eqb t0 want) eqn:Ew.
    + assert (t0 = want) by (destruct t0, want; try discriminate; reflexivity). subst t0.
      injection H as <- <- <- <-. exists [Arrives want x], its. split; [reflexivity|split; [reflexivity|]].
      intros t got. subst got. unfold arrived. cbn [flat_map]. destruct (mtype_eqb want t) eqn:E2.
      * assert (want = t) by (destruct want, t; try discriminate; reflexivity). subst t. rewrite Hnone. cbn [app].
        split; [apply subseq_refl|reflexivity].
      * cbn [app]. rewrite app_nil_r. split; [apply subseq_refl|reflexivity].
    + destruct mem; [|eapply Lost; [|exact H]; left; reflexivity].
      injection H as <- <- <- <-. exists [Arrives t0 x], its. split; [reflexivity|split; [reflexivity|]].
      intros t got. subst got. unfold buffered at 1 3, arrived. rewrite flat_map_app. cbn [flat_map fst snd app].
      rewrite !app_nil_r. split; [apply subseq_refl|reflexivity].
Qed.

Lemma call_step cl b its c m b' w' :
  Forall item_ok its -> do_call cl b (map to_rd its) = Ret (c, m, b', w') ->
  exists used rest, its = used ++ rest /\ w' = map to_rd rest /\
    forall t, subseq (handed t [(c, m)] ++ buffered t b') (buffered t b ++ arrived t used) /\
      (c <> CError -> handed t [(c, m)] ++ buffered t b' = buffered t b ++ arrived t used).
Proof.
  intros Hok H.
  assert (Stay : Ret (CError, None, b, map to_rd its) = Ret (c, m, b', w') ->
    exists used rest, its = used ++ rest /\ w' = map to_rd rest /\
    forall t, subseq (handed t [(c, m)] ++ buffered t b') (buffered t b ++ arrived t used) /\
      (c <> CError -> handed t [(c, m)] ++ buffered t b' = buffered t b ++ arrived t used)).
  { intros Hx. injection Hx as <- <- <- <-. exists [], its. split; [reflexivity|split; [reflexivity|]].
    intros t. cbn [handed flat_map app arrived]. rewrite app_nil_r. split; [apply subseq_refl|reflexivity]. }
  destruct cl as [run dup parse id lk mem|run parse lk mem]; cbn [do_call] in H.
  - unfold nc_recv_reply in H. destruct run; [|apply Stay; exact H]. destruct dup; [|apply Stay; exact H].
    cbn [negb] in H. unfold recv_reply in H.
    destruct (recv_msg Reply lk mem b (map to_rd its)) as [[[[c0 m0] b0] w0]|] eqn:E; [|discriminate].
    destruct (recv_msg_step _ _ _ _ _ _ _ _ _ Hok E) as (used & rest & -> & Hw & Hs).
    destruct m0 as [x|].
    + pose proof (recv_msg_some _ _ _ _ _ _ _ _ _ E) as Hc0. cbn [code_of] in Hc0. subst c0.
      assert (G : (c = CReply \/ c = CReplyErrMsgid) /\ m = Some x /\ b' = b0 /\ w' = w0 \/
                  c = CError /\ m = None /\ b' = b0 /\ w' = w0).
      { destruct (p_envp (parse x)) as [a|].
        - injection H as <- <- <- <-. left. split; [|auto]. unfold recv_reply_check_msgid.
          destruct (find _ a) as [[n v]|]; [destruct (strtoul v =? id)|]; auto.
        - destruct (p_ok (parse x)); injection H as <- <- <- <-; auto 8. }
      exists used, rest. split; [reflexivity|]. destruct G as [(Hc & -> & -> & ->)|(-> & -> & -> & ->)].
      * split; [exact Hw|]. intros t. destruct (Hs t) as [S1 S2].
        assert (Hh : handed t [(c, Some x)] = if mtype_eqb Reply t then [x] else []).
        { destruct Hc as [-> | ->]; destruct t; reflexivity. }
        rewrite Hh. split; [exact S1|]. intros _. apply S2. discriminate.
      * split; [exact Hw|]. intros t. destruct (Hs t) as [S1 _].
        split; [|intros Hx; contradiction]. cbn [handed flat_map app].
        eapply subseq_trans; [|exact S1]. rewrite <- (app_nil_l (buffered t b0)) at 1.
        apply subseq_app; [apply subseq_nil|apply subseq_refl].
    + assert (G : c = c0 /\ m = None /\ b' = b0 /\ w' = w0) by (destruct c0; injection H as <- <- <- <-; auto).
      destruct G as (-> & -> & -> & ->). exists used, rest. split; [reflexivity|split; [exact Hw|]].
      intros t. replace (handed t [(c0, None)]) with (@nil bytes) by (destruct c0, t; reflexivity). apply (Hs t).
  - unfold nc_recv_notif in H. destruct run; [|apply Stay; exact H]. cbn [negb] in H.
    destruct (recv_msg Notif lk mem b (map to_rd its)) as [[[[c0 m0] b0] w0]|] eqn:E; [|discriminate].
    destruct (recv_msg_step _ _ _ _ _ _ _ _ _ Hok E) as (used & rest & -> & Hw & Hs).
    destruct m0 as [x|].
    + pose proof (recv_msg_some _ _ _ _ _ _ _ _ _ E) as Hc0. cbn [code_of] in Hc0. subst c0.
      exists used, rest. split; [reflexivity|].
      destruct (p_ok (parse x)); injection H as <- <- <- <-; (split; [exact Hw|]); intros t; destruct (Hs t) as [S1 S2].
      * assert (Hh : handed t [(CNotif, Some x)] = if mtype_eqb Notif t then [x] else []) by (destruct t; reflexivity).
        rewrite Hh. split; [exact S1|]. intros _. apply S2. discriminate.
      * split; [|intros Hx; contradiction]. cbn [handed flat_map app].
        eapply subseq_trans; [|exact S1]. rewrite <- (app_nil_l (buffered t b0)) at 1.
        apply subseq_app; [apply subseq_nil|apply subseq_refl].
    + assert (G : c = c0 /\ m = None /\ b' = b0 /\ w' = w0) by (destruct c0; injection H as <- <- <- <-; auto).
      destruct G as (-> & -> & -> & ->). exists used, rest. split; [reflexivity|split; [exact Hw|]].
      intros t. replace (handed t [(c0, None)]) with (@nil bytes) by (destruct c0, t; reflexivity). apply (Hs t).
Qed.

Lemma calls_steps cs : forall b its outs b' w',
  Forall item_ok its -> do_calls cs b (map to_rd its) = Ret (outs, b', w') ->
  exists used rest, its = used ++ rest /\ w' = map to_rd rest /\
    forall t, subseq (handed t outs ++ buffered t b') (buffered t b ++ arrived t used) /\
      (Forall (fun o => fst o <> CError) outs -> handed t outs ++ buffered t b' = buffered t b ++ arrived t used).
Proof.
  induction cs as [|c cs IH]; intros b its outs b' w' Hok H; cbn [do_calls] in H.
  - injection H as <- <- <-. exists [], its. split; [reflexivity|split; [reflexivity|]].
    intros t. cbn [handed flat_map app arrived]. rewrite app_nil_r. split; [apply subseq_refl|reflexivity].
  - destruct (do_call c b (map to_rd its)) as [[[[r m] b1] w1]|] eqn:E; [|discriminate].
    destruct (call_step _ _ _ _ _ _ _ Hok E) as (u1 & r1 & -> & -> & S1).
    apply Forall_app in Hok. destruct Hok as [_ Hok1].
    destruct (do_calls cs b1 (map to_rd r1)) as [[[l b2] w2]|] eqn:E2; [|discriminate]. injection H as <- <- <-.
    destruct (IH _ _ _ _ _ Hok1 E2) as (u2 & r2 & -> & -> & S2).
    exists (u1 ++ u2), r2. split; [now rewrite app_assoc|split; [reflexivity|]]. intros t.
    destruct (S1 t) as [A1 A2]. destruct (S2 t) as [B1 B2].
    assert (Hh : handed t ((r, m) :: l) = handed t [(r, m)] ++ handed t l).
    { unfold handed. cbn [flat_map]. now rewrite app_nil_r. }
    assert (Ha : arrived t (u1 ++ u2) = arrived t u1 ++ arrived t u2) by (unfold arrived; apply flat_map_app).
    rewrite Hh, Ha, <- app_assoc. split.
    + eapply subseq_trans; [apply subseq_app; [apply subseq_refl|exact B1]|].
      rewrite !app_assoc. apply subseq_app; [exact A1|apply subseq_refl].
    + intros Hf. inversion Hf; subst. rewrite (B2 H2), !app_assoc. f_equal. now apply A2.
Qed.

(** For every sequence of receive calls (of any threads) on a session with nothing buffered, whatever the
    peer sends and however the calls fail: what was handed over followed by what is buffered is, for replies
    as for notifications, in the order of arrival, with nothing invented or doubled; if no call returned
    NC_MSG_ERROR, it is everything that arrived.  (Why partial: a call that fails can lose a message, see the
    refutation; messages are as in [c24_type_partial].) *)
Theorem c23_order_partial : forall cs its outs b' w',
  Forall item_ok its -> do_calls cs [] (map to_rd its) = Ret (outs, b', w') ->
  exists used rest, its = used ++ rest /\ w' = map to_rd rest /\
    forall t, subseq (handed t outs ++ buffered t b') (arrived t used) /\
      (Forall (fun o => fst o <> CError) outs -> handed t outs ++ buffered t b' = arrived t used).
Proof. intros cs its outs b' w' Hok H. exact (calls_steps cs [] its outs b' w' Hok H). Qed.

Lemma root_example t x : root ordinary_comment (element t) (bs "<" ++ element t ++ ">"%char :: x).
Proof.
  exists [], ">"%char, x. split; [constructor|]. split; [|split; [right; right; reflexivity|reflexivity]].
  destruct t; (split; [discriminate|split; [in_name|split; discriminate]]).
Qed.

(** Out of memory while a notification is being put aside: it is neither handed over nor buffered. *)
Theorem c23_lost_refuted : exists cs m outs,
  Forall item_ok [Arrives Notif m] /\
  do_calls cs [] (map to_rd [Arrives Notif m]) = Ret (outs, [], []) /\ handed Notif outs = [].
Proof.
  exists [CallReply true true (fun _ => mkP true (Some [])) 1 LkOk false], (bs "<" ++ element Notif ++ ">"%char :: bs "</notification>").
  eexists. split; [repeat constructor; apply root_example|]. split; [vm_compute; reflexivity|reflexivity].
Qed.

(** Notification, notification, reply arrive; the client asks for the reply three times, then for
    notifications. *)
Example c23_example :
  let n1 := bs "<" ++ element Notif ++ ">"%char :: bs "1" in
  let n2 := bs "<" ++ element Notif ++ ">"%char :: bs "2" in
  let r := bs "<" ++ element Reply ++ ">"%char :: bs "" in
  let its := [Arrives Notif n1; Arrives Notif n2; Nothing; Arrives Reply r] in
  let p (_ : bytes) := mkP true (Some [(bs "message-id", bs "1")]) in
  let q := CallReply true true p 1 LkOk true in
  let n := CallNotif true p LkOk true in
  Forall item_ok its /\
  do_calls [q; q; n; q; q] [] (map to_rd its) =
    Ret ([(CNotif, None); (CNotif, None); (CNotif, Some n1); (CWouldblock, None); (CReply, Some r)], [(Notif, n2)], []).
Proof. cbv zeta. split; [repeat constructor; apply root_example|vm_compute; reflexivity]. Qed.

(* ================================================================== *)
(** * C25: every result of reading *)

(** Whatever else is read, the calls return one of the documented values. *)
Theorem c25_defined_partial : forall cs b w, ~ In RdBad w -> do_calls cs b w <> Crash.
Proof.
  assert (S : forall t lk mem b w, ~ In RdBad w -> exists c m b' w', recv_msg t lk mem b w = Ret (c, m, b', w') /\ ~ In RdBad w').
  { intros t lk mem b w Hw. unfold recv_msg. destruct lk; [|eauto 8..].
    destruct (take_type t b) as [[x bx]|]; [eauto 8|].
    destruct w as [|[| | |x] w]; [eauto 8| | | |].
    - do 4 eexists. split; [reflexivity|]. intros H. apply Hw. right; exact H.
    - do 4 eexists. split; [reflexivity|]. intros H. apply Hw. right; exact H.
    - exfalso. apply Hw. left; reflexivity.
    - assert (Hw' : ~ In RdBad w) by (intros H; apply Hw; right; exact H).
      destruct (get_msg_type x) as [t'|]; [|eauto 8]. destruct (mtype_eqb t' t); [eauto 8|]. destruct mem; eauto 8. }
  assert (D : forall c b w, ~ In RdBad w -> exists r m b' w', do_call c b w = Ret (r, m, b', w') /\ ~ In RdBad w').
  { intros [run dup parse id lk mem|run parse lk mem] b w Hw; cbn [do_call].
    - unfold nc_recv_reply. destruct run; [|cbn [negb]; eauto 8]. destruct dup; [|cbn [negb]; eauto 8]. cbn [negb].
      unfold recv_reply. destruct (S Reply lk mem b w Hw) as (c & m & b' & w' & -> & Hw').
      destruct c, m as [m|]; eauto 8. destruct (p_envp (parse m)); [eauto 8|]. destruct (p_ok (parse m)); eauto 8.
    - unfold nc_recv_notif. destruct run; [|cbn [negb]; eauto 8]. cbn [negb].
      destruct (S Notif lk mem b w Hw) as (c & m & b' & w' & -> & Hw').
      destruct c, m as [m|]; eauto 8. destruct (p_ok (parse m)); eauto 8. }
  intros cs; induction cs as [|c cs IH]; intros b w Hw; [discriminate|]. cbn [do_calls].
  destruct (D c b w Hw) as (r & m & b' & w' & -> & Hw'). specialize (IH b' w' Hw').
  destruct (do_calls cs b' w') as [[[l b2] w2]|]; [discriminate|contradiction].
Qed.

(** In particular on every session with the 1.0 framing, whatever bytes arrive. *)
Theorem c25_version10 : forall alloc ts cs b w,
  (forall r, In r w -> In (Some r) (map (fun t => rd_of (nc_read_msg_io alloc V10 t)) ts) \/ r = RdTimeout) ->
  do_calls cs b w <> Crash.
Proof.
  intros alloc ts cs b w H. apply c25_defined_partial. intros Hin. destruct (H _ Hin) as [Hm|Hm]; [|discriminate].
  apply in_map_iff in Hm. destruct Hm as (t & Ht & _). cbn [nc_read_msg_io] in Ht. unfold nc_read_msg10 in Ht.
  destruct (nc_read_until alloc t ENDTAG10) as [d t1|w1 t1| | |u]; cbn [lift_fail rd_of] in Ht; try discriminate.
  destruct (lenN d mod w32 =? w32 - 1); [discriminate|]. destruct (w31 <=? lenN d mod w32); discriminate.
Qed.

(** The claim as stated is false: the four bytes of an empty chunked message make the client dereference
    a NULL pointer, in nc_recv_reply() and in nc_recv_notif(). *)
Theorem c25_malformed_refuted :
  let r := rd_of (nc_read_msg_io (fun _ => true) V11 [TData [NL; HASH; HASH; NL]]) in
  r = Some RdBad /\
  (forall dup parse id mem b w, dup = true -> buffered Reply b = [] ->
     nc_recv_reply true dup parse id LkOk mem b (RdBad :: w) = Crash) /\
  (forall parse mem b w, buffered Notif b = [] -> nc_recv_notif true parse LkOk mem b (RdBad :: w) = Crash).
Proof.
  assert (T : forall t b, buffered t b = [] -> take_type t b = None).
  { intros t b H. destruct (take_type t b) as [[x bx]|] eqn:E; [|reflexivity].
    destruct (take_buffered _ _ _ _ E) as [E1 _]. congruence. }
  cbv zeta. split; [vm_compute; reflexivity|]. split.
  - intros dup parse id mem b w -> Hb. unfold nc_recv_reply, recv_reply, recv_msg. cbn [negb].
    now rewrite (T _ _ Hb).
  - intros parse mem b w Hb. unfold nc_recv_notif, recv_msg. cbn [negb]. now rewrite (T _ _ Hb).
Qed.

(* ================================================================== *)
(** * C26: capabilities of the peer *)

(** [c] is the capability [capab] with or without parameters. *)
Definition is_capability (capab c : bytes) : Prop := c = capab \/ exists params, c = capab ++ bs "?" ++ params.

(** For every list of the peer: the answer is an element of the list starting with what was asked for;
    when an element is the capability asked for (with or without parameters), there is an answer; when none
    starts with it, there is none. *)
Theorem c26_lookup_partial : forall l capab,
  exists r, nc_session_cpblt (Some l) capab = Ret r /\
    (forall c, r = Some c -> In c l /\ prefix capab c) /\
    ((exists c, In c l /\ is_capability capab c) -> r <> None) /\
    (r = None -> forall c, In c l -> ~ prefix capab c).
Proof.
  intros l capab. eexists. split; [reflexivity|].
  assert (F : forall c, strncmp0 c capab (length capab) = prefixb capab c) by (intros c; apply strncmp0_prefix_r).
  assert (Hnone : find (fun c => strncmp0 c capab (length capab)) l = None -> forall c, In c l -> ~ prefix capab c).
  { intros Hn c Hc Hp. apply (find_none _ _ Hn) in Hc. rewrite F in Hc. apply prefixb_spec in Hp. congruence. }
  split; [|split; [|exact Hnone]].
  - intros c Hc. apply find_some in Hc. destruct Hc as [Hin Hc]. split; [exact Hin|]. rewrite F in Hc. now apply prefixb_spec.
  - intros (c & Hc & Hcap) Hn. apply (Hnone Hn c Hc). destruct Hcap as [-> | [ps ->]]; [exists []; now rewrite app_nil_r|].
    exists (bs "?" ++ ps). reflexivity.
Qed.

(** The claim as stated is false: another capability is answered although the one asked for is in the
    list, and also when it is not. *)
Theorem c26_lookup_refuted :
  let c1 := bs "urn:example:a:1.10" in let c2 := bs "urn:example:a:1.1" in
  nc_session_cpblt (Some [c1; c2]) c2 = Ret (Some c1) /\ nc_session_cpblt (Some [c1]) c2 = Ret (Some c1) /\
  ~ is_capability c2 c1.
Proof.
  cbv zeta. split; [vm_compute; reflexivity|split; [vm_compute; reflexivity|]].
  intros [H|[p H]]; discriminate H.
Qed.

Example c26_example :
  nc_session_cpblt (Some [bs "urn:a"; bs "urn:wd?basic-mode=trim"]) (bs "urn:wd") = Ret (Some (bs "urn:wd?basic-mode=trim"))
  /\ nc_session_cpblt (Some [bs "urn:a"]) (bs "urn:wd") = Ret None.
Proof. split; reflexivity. Qed.

Print Assumptions c22_msgid_partial.
Print Assumptions c22_reply_message.
Print Assumptions c22_msgid_refuted.
Print Assumptions c23_order_partial.
Print Assumptions c23_lost_refuted.
Print Assumptions c24_type_partial.
Print Assumptions c24_comment_refuted.
Print Assumptions c24_prefix_refuted.
Print Assumptions c24_longer_name_refuted.
Print Assumptions c25_defined_partial.
Print Assumptions c25_version10.
Print Assumptions c25_malformed_refuted.
Print Assumptions c26_lookup_partial.
Print Assumptions c26_lookup_refuted.
