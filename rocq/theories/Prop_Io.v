(** Properties C01-C07: message framing.  Specification, theorems, examples. *)
From Coq Require Import Ascii String NArith ZArith Bool Lia List.
From Verif Require Import Bytes IoRead IoReadProofs IoWrite IoWriteProofs IoRoundTrip IoSafety.
Import ListNotations.
Local Open Scope N_scope.

(* ================================================================== *)
(** * Specification *)

(** ** The transport
    [incoming t]: the bytes a transport history delivers before the first failure, however they are
    cut into fragments and interleaved with "nothing yet" events. *)
Fixpoint incoming (t : list tev) : bytes :=
  match t with
  | TData f :: t' => f ++ incoming t'
  | TAgain false :: t' | TIntr false :: t' => incoming t'
  | _ => []
  end.
(** What is left of the history from that first failure on (nothing if there is none). *)
Fixpoint failure (t : list tev) : list tev :=
  match t with
  | TData _ :: t' | TAgain false :: t' | TIntr false :: t' => failure t'
  | _ => t
  end.
(** The receiver's allocator grants blocks up to [B] bytes. *)
Definition grants (alloc : N -> bool) (B : N) : Prop := forall n, n <= B -> alloc n = true.

(** ** RFC 6242, section 4.2
    chunked-message = 1*chunk end-of-chunks; chunk = LF HASH size LF 1*OCTET;
    size = DIGIT1 0*DIGIT in 1..4294967295; end-of-chunks = LF HASH HASH LF. *)
Definition decimal (ds : bytes) : N := fold_left (fun a c => 10 * a + (N_of_ascii c - 48)) ds 0.
Definition rfc_size (ds : bytes) (n : N) : Prop :=
  ds <> [] /\ (forall c, In c ds -> 48 <= N_of_ascii c <= 57) /\ hd_error ds <> Some "0"%char /\ decimal ds = n.
Inductive rfc_chunks : bytes -> list bytes -> Prop :=
| rfc_end : rfc_chunks [NL; HASH; HASH; NL] []
| rfc_chunk ds c s cs :
    rfc_size ds (lenN c) -> lenN c <= 4294967295 -> rfc_chunks s cs ->
    rfc_chunks ([NL; HASH] ++ ds ++ [NL] ++ c ++ s) (c :: cs).
Definition rfc_message (s m : bytes) : Prop := exists cs, rfc_chunks s cs /\ cs <> [] /\ m = concat cs.

(** ** XML character data
    [xml_text s d]: the character data [s] denotes the text [d]. *)
Inductive xml_text : bytes -> bytes -> Prop :=
| xml_nil : xml_text [] []
| xml_chr c s d : c <> "<"%char -> c <> ">"%char -> c <> "&"%char -> xml_text s d -> xml_text (c :: s) (c :: d)
| xml_amp s d : xml_text s d -> xml_text (bs "&amp;" ++ s) ("&"%char :: d)
| xml_lt s d : xml_text s d -> xml_text (bs "&lt;" ++ s) ("<"%char :: d)
| xml_gt s d : xml_text s d -> xml_text (bs "&gt;" ++ s) (">"%char :: d).

(** ** What an application asked to send
    A message is a sequence of raw strings, strings to be written as XML character data, and pieces
    printed by libyang. *)
Definition escape (d : bytes) : bytes :=
  concat (map (fun c => match N_of_ascii c with 38 => bs "&amp;" | 60 => bs "&lt;" | 62 => bs "&gt;" | _ => [c] end) d).
Definition payload (ps : list part) : bytes :=
  concat (map (fun p => match p with
                        | PRaw d false => d
                        | PRaw d true => escape d
                        | PPrint pieces _ => concat pieces
                        end) ps).
(** Each single write is shorter than 2^32 - 1024 bytes and libyang does not fail by itself. *)
Definition reasonable (p : part) : Prop :=
  match p with
  | PRaw d _ => lenN d < 4294966272
  | PPrint ds ok => ok = true /\ Forall (fun d => lenN d < 4294966272) ds
  end.
(** The session is usable and the transport does not report a write error (it may still block,
    accept only part of the data, be interrupted, or find the peer gone). *)
Definition usable (st : wst) : Prop := ws_ok st = true /\ ~ In WErr (ws_ev st).

(* ================================================================== *)
(** * Bridging lemmas (specification to model) *)

Lemma incoming_avail t : incoming t = avail t.
Proof. induction t as [|[f|[]|[]| |] t IH]; cbn; congruence. Qed.
Lemma failure_tail t : failure t = tail_of t.
Proof. induction t as [|[f|[]|[]| |] t IH]; cbn; congruence. Qed.

Lemma is_digit_iff c : is_digit c = true <-> 48 <= N_of_ascii c <= 57.
Proof. unfold is_digit. now rewrite andb_true_iff, !N.leb_le. Qed.

Lemma decimal_val ds : all_digits ds -> decimal ds = digits_val 0 ds.
Proof.
  unfold decimal. generalize 0 as a. induction ds as [|c ds IH]; intros a H; [reflexivity|].
  cbn [fold_left digits_val]. rewrite (H c (or_introl eq_refl)).
  rewrite IH by (intros x Hx; apply H; now right). f_equal. unfold digit_val. lia.
Qed.

Lemma rfc_size_dec ds n : rfc_size ds n -> ds = dec n.
Proof.
  intros (H1 & H2 & H3 & H4).
  assert (Hd : all_digits ds) by (intros c Hc; apply is_digit_iff; auto).
  destruct (canonical_dec ds H1 Hd H3) as [E _]. rewrite decimal_val in H4 by exact Hd. congruence.
Qed.

Lemma dec_hd n : 0 < n -> hd_error (dec n) <> Some "0"%char.
Proof.
  induction n as [n IH] using (well_founded_induction N.lt_wf_0). intros Hn.
  destruct (N.ltb_spec n 10).
  - rewrite dec_small by lia. cbn [hd_error]. intros E.
    assert (E1 : ascii_of_N (48 + n) = "0"%char) by congruence.
    assert (E2 : N_of_ascii (ascii_of_N (48 + n)) = 48) by (rewrite E1; reflexivity).
    rewrite N_ascii_embedding in E2 by lia. lia.
  - rewrite dec_step by lia. assert (0 < n / 10) by (apply N.div_str_pos; lia).
    specialize (IH (n / 10) ltac:(apply N.div_lt; lia) H0).
    destruct (dec (n / 10)) eqn:E; [now apply dec_nonempty in E|exact IH].
Qed.

Lemma rfc_size_of n : 0 < n -> rfc_size (dec n) n.
Proof.
  intros Hn. split; [apply dec_nonempty|]. split; [intros c Hc; apply is_digit_iff, (dec_digits n), Hc|].
  split; [now apply dec_hd|]. rewrite decimal_val by apply dec_digits. apply dec_val.
Qed.

Lemma rfc_of_frames cs : Forall chunk_ok cs -> rfc_chunks (frames V11 cs ++ frame_end V11) cs.
Proof.
  induction 1 as [|c cs [H1 H2] Hcs IH]; [constructor|].
  unfold frames. cbn [map concat frame_chunk]. rewrite <- !app_assoc.
  apply (rfc_chunk (dec (lenN c)) c (frames V11 cs ++ frame_end V11) cs); auto.
  - apply rfc_size_of. destruct c; [congruence|]. rewrite lenN_cons. lia.
  - unfold w32 in H2. lia.
Qed.

Lemma frames_of_rfc s cs : rfc_chunks s cs -> Forall (fun c => lenN c < 4294967295) cs ->
  s = frames V11 cs ++ frame_end V11 /\ Forall chunk_ok cs.
Proof.
  induction 1 as [|ds c s cs Hs Hl Hc IH]; intros Hall; [split; [reflexivity|constructor]|].
  inversion_clear Hall. destruct (IH ltac:(assumption)) as [-> Hok].
  pose proof (rfc_size_dec _ _ Hs) as ->. split.
  - unfold frames. cbn [map concat frame_chunk]. now rewrite <- !app_assoc.
  - constructor; [|exact Hok]. split; [|exact H]. destruct Hs as (_ & _ & H3 & _). intros ->. cbn in H3. now apply H3.
Qed.

Lemma escape_esc1 d : escape d = flat_map esc1 d.
Proof.
  unfold escape. rewrite flat_map_concat_map. f_equal. apply map_ext. intros c.
  unfold esc1. destruct c as [[] [] [] [] [] [] [] []]; reflexivity.
Qed.

Lemma payload_text ps : payload ps = msg_text ps.
Proof.
  unfold payload, msg_text. rewrite flat_map_concat_map. f_equal. apply map_ext.
  intros [d [|]|ds ok]; cbn [part_text text_of]; auto using escape_esc1.
Qed.

Lemma reasonable_small ps : Forall reasonable ps -> Forall part_small ps.
Proof.
  apply Forall_impl. intros [d x|ds ok]; cbn [reasonable part_small]; unfold WRITE_BUFSIZE, w32.
  - lia.
  - intros [H1 H2]. split; [exact H1|]. revert H2. apply Forall_impl. intros; lia.
Qed.

Lemma escape_text d : xml_text (escape d) d.
Proof.
  rewrite escape_esc1. induction d as [|c d IH]; [constructor|]. cbn [flat_map]. unfold esc1 at 1.
  destruct (Ascii.eqb_spec c "&") as [->|N1]; [now constructor|].
  destruct (Ascii.eqb_spec c "<") as [->|N2]; [now constructor|].
  destruct (Ascii.eqb_spec c ">") as [->|N3]; [now constructor|].
  cbn [app]. now constructor.
Qed.

Lemma xml_text_fun s d1 d2 : xml_text s d1 -> xml_text s d2 -> d1 = d2.
Proof.
  intros H. revert d2. induction H as [|c s d H1 H2 H3 H IH|s d H IH|s d H IH|s d H IH]; intros d2 H4.
  - inversion H4; reflexivity.
  - inversion H4; subst; try (f_equal; auto; fail); congruence.
  - inversion H4; subst; try congruence. f_equal. auto.
  - inversion H4; subst; try congruence. f_equal. auto.
  - inversion H4; subst; try congruence. f_equal. auto.
Qed.

Lemma xml_text_clean s d : xml_text s d -> ~ In "<"%char s /\ ~ In ">"%char s.
Proof.
  induction 1 as [|c s d H1 H2 H3 H IH|s d H IH|s d H IH|s d H IH];
    (split; intros Hi; cbn in Hi; destruct IH + idtac; intuition congruence).
Qed.

(* ================================================================== *)
(** * C01: chunked framing round trip *)

(** Whatever pieces the message was written in ([ps]), however the sender's transport accepted the
    bytes, and however the receiver's transport cuts the stream ([t]), a message reported as sent is
    received byte for byte, and exactly the bytes after it are left.
    Hypotheses: the message is not empty and contains no NUL byte (XML has none); single writes are
    below 2^32 - 1024 bytes; the receiver can allocate the message. *)
Theorem c01_chunked_round_trip_partial : forall ps st st' alloc t rest,
  usable st -> Forall reasonable ps -> payload ps <> [] -> ~ In NUL (payload ps) ->
  lenN (payload ps) < 18446744073709550000 -> grants alloc (lenN (payload ps) + 1024) ->
  nc_write_msg_io V11 st ps = (MsgSent, st') ->
  forall sent, ws_wire st' = ws_wire st ++ sent -> incoming t = sent ++ rest ->
  exists t', nc_read_msg_io alloc V11 t = MMsg (payload ps) t' /\ incoming t' = rest /\ failure t' = failure t.
Proof.
  intros ps st st' alloc t rest [Hok He] Hr Hne Hnn Hw Ha Hs sent Hsent Hin.
  apply reasonable_small in Hr. rewrite payload_text in *.
  destruct (write_ok V11 st ps st' Hok He Hr Hs) as (Hw1 & _).
  rewrite Hw1 in Hsent. apply app_inv_head in Hsent. subst sent.
  destruct (msg_chunks_content ps Hr) as [Hc1 Hc2].
  destruct (read11_exact alloc t (msg_chunks ps) rest) as (t' & H1 & H2 & H3); auto using msg_chunks_ne.
  - rewrite Hc2. unfold w64. lia.
  - rewrite Hc2. exact Ha.
  - rewrite <- incoming_avail, Hin, <- app_assoc. reflexivity.
  - exists t'. rewrite H1, Hc2, cstr_id by exact Hnn. rewrite !incoming_avail, !failure_tail. auto.
Qed.

(** A message in three parts, the middle one escaped, over a sender that accepts 3 bytes at a time
    (with interruptions) and a receiver that gets 2-byte fragments; trailing data "Z". *)
Definition ex_parts : list part := [PRaw (bs "<a>") false; PRaw (bs "1<2&3") true; PPrint [bs "<b/>"; bs "</a>"] true].
Definition ex_sender : wst := mkW true [] (flat_map (fun _ => [WAcc 3; WAgain; WIntr]) (repeat tt 60)).
Definition ex_wire : bytes := Eval vm_compute in ws_wire (snd (nc_write_msg_io V11 ex_sender ex_parts)).
Fixpoint in_twos (fuel : nat) (l : bytes) : list tev :=
  match fuel, l with
  | S f, a :: b :: r => TData [a; b] :: TAgain false :: in_twos f r
  | _, [] => []
  | _, l => [TData l]
  end.
Example c01_example :
  (usable ex_sender /\ Forall reasonable ex_parts /\ payload ex_parts <> [] /\ ~ In NUL (payload ex_parts)) /\
  fst (nc_write_msg_io V11 ex_sender ex_parts) = MsgSent /\
  exists t', nc_read_msg_io (fun _ => true) V11 (in_twos 60 (ex_wire ++ bs "Z"))
             = MMsg (bs "<a>1&lt;2&amp;3<b/></a>") t' /\ incoming t' = bs "Z".
Proof.
  split.
  - split; [split; [reflexivity|vm_compute; intuition discriminate]|].
    split; [repeat constructor|]. split; [discriminate|vm_compute; intuition discriminate].
  - split; [reflexivity|]. eexists. split; [vm_compute; reflexivity|reflexivity].
Qed.
Print Assumptions c01_chunked_round_trip_partial.

(* ================================================================== *)
(** * C02: end-of-message framing round trip *)

(** Full statement: for every message without the marker "]]>]]>" inside.  It is false: a message
    whose last bytes look like the beginning of the marker makes the reader miss the marker. *)
Definition eom_round_trip (m : bytes) : Prop := forall alloc t rest,
  lenN m < 2147483000 -> grants alloc (lenN m + 1024) -> incoming t = m ++ bs "]]>]]>" ++ rest ->
  exists t', nc_read_msg_io alloc V10 t = MMsg m t' /\ incoming t' = rest /\ failure t' = failure t.
Definition contains (m tag : bytes) : Prop := exists a b, m = a ++ tag ++ b.

Theorem c02_eom_round_trip_refuted :
  exists m, ~ contains m (bs "]]>]]>") /\ ~ In NUL m /\ ~ eom_round_trip m.
Proof.
  exists (bs "abcd]"). split; [|split].
  - intros (a & b & E). assert (H : (length (bs "abcd]") >= 6)%nat) by (rewrite E, !app_length; cbn; lia). cbn in H. lia.
  - vm_compute. intuition discriminate.
  - intros H. destruct (H (fun _ => true) [TData (bs "abcd]]]>]]>")] [] ltac:(reflexivity) ltac:(intros ? ?; reflexivity) ltac:(reflexivity))
      as (t' & E & _). vm_compute in E. discriminate.
Qed.

(** What holds: every message that does not contain the marker and does not end in "]" or "]]>".
    (A well-formed XML document satisfies the second condition: it ends in a tag, a comment or a
    processing instruction, possibly followed by white space.) *)
Theorem c02_eom_round_trip_partial : forall m,
  ~ contains m (bs "]]>]]>") -> ~ In NUL m -> (forall a, m <> a ++ bs "]") -> (forall a, m <> a ++ bs "]]>") ->
  eom_round_trip m.
Proof.
  intros m H1 H2 H3 H4 alloc t rest Hl Ha Hin.
  destruct (read10_exact alloc t m rest) as (t' & E1 & E2 & E3).
  - apply tag_clean_endtag10; [exact H1| |]; intros [a E]; [apply (H3 a)|apply (H4 a)]; exact E.
  - unfold w31. lia.
  - exact Ha.
  - now rewrite <- incoming_avail.
  - exists t'. rewrite E1, cstr_id by exact H2. rewrite !incoming_avail, !failure_tail. auto.
Qed.

(** The sender side: what a 1.0 session puts on the wire is the message followed by the marker. *)
Theorem c02_eom_sender : forall ps st st',
  usable st -> Forall reasonable ps -> nc_write_msg_io V10 st ps = (MsgSent, st') ->
  ws_wire st' = ws_wire st ++ payload ps ++ bs "]]>]]>".
Proof.
  intros ps st st' [Hok He] Hr Hs. apply reasonable_small in Hr.
  destruct (write_ok V10 st ps st' Hok He Hr Hs) as (Hw1 & _).
  rewrite Hw1, frames10, payload_text. now destruct (msg_chunks_content ps Hr) as [_ ->].
Qed.

Example c02_example : exists t',
  nc_read_msg_io (fun _ => true) V10 (in_twos 60 (bs "<a>]] > ]]></a>]]>]]>Z")) = MMsg (bs "<a>]] > ]]></a>") t'
  /\ incoming t' = bs "Z".
Proof. eexists. split; [vm_compute; reflexivity|reflexivity]. Qed.
Example c02_sender_example : ws_wire (snd (nc_write_msg_io V10 ex_sender ex_parts)) = bs "<a>1&lt;2&amp;3<b/></a>]]>]]>".
Proof. reflexivity. Qed.
Print Assumptions c02_eom_round_trip_refuted.
Print Assumptions c02_eom_round_trip_partial.
Print Assumptions c02_eom_sender.

(* ================================================================== *)
(** * C03: consecutive messages *)

(** [sends v st msgs st']: the messages were sent one after another, each reported as sent. *)
Inductive sends (v : version) : wst -> list (list part) -> wst -> Prop :=
| sends_nil st : sends v st [] st
| sends_cons st m st1 ms st2 : nc_write_msg_io v st m = (MsgSent, st1) -> sends v st1 ms st2 -> sends v st (m :: ms) st2.
(** [receives alloc v t ms t']: successive receive calls returned exactly the messages [ms]. *)
Inductive receives (alloc : N -> bool) (v : version) : list tev -> list bytes -> list tev -> Prop :=
| recv_nil t : receives alloc v t [] t
| recv_cons t m t1 ms t2 : nc_read_msg_io alloc v t = MMsg m t1 -> receives alloc v t1 ms t2 -> receives alloc v t (m :: ms) t2.

Lemma sends_send_all v st ms st' : sends v st ms st' -> send_all v st ms = Some st'.
Proof. induction 1 as [|st m st1 ms st2 H Hs IH]; [reflexivity|]. cbn. now rewrite H. Qed.
Lemma recv_n_receives alloc v n : forall t ms t', recv_n alloc v t n = Some (ms, t') -> receives alloc v t ms t'.
Proof.
  induction n as [|n IH]; intros t ms t'; cbn.
  - intros [= <- <-]. constructor.
  - destruct (nc_read_msg_io alloc v t) as [m t1| | | | |] eqn:E; try discriminate.
    destruct (recv_n alloc v t1 n) as [[ms' t2]|] eqn:E2; [|discriminate]. intros [= <- <-].
    econstructor; eauto.
Qed.

Theorem c03_messages_in_sequence_partial : forall msgs st st' alloc t rest sent B,
  usable st ->
  Forall (fun ps => Forall reasonable ps /\ payload ps <> [] /\ ~ In NUL (payload ps) /\ lenN (payload ps) + 1024 <= B) msgs ->
  B < 18446744073709551616 -> grants alloc B ->
  sends V11 st msgs st' -> ws_wire st' = ws_wire st ++ sent -> incoming t = sent ++ rest ->
  exists t', receives alloc V11 t (map payload msgs) t' /\ incoming t' = rest /\ failure t' = failure t.
Proof.
  intros msgs st st' alloc t rest sent B [Hok He] Hall HB Ha Hs Hsent Hin.
  apply sends_send_all in Hs.
  assert (H1 : Forall (Forall part_small) msgs).
  { revert Hall. apply Forall_impl. intros ps (H & _). now apply reasonable_small. }
  rewrite (send_all_wire V11 st msgs st' Hok He H1 Hs) in Hsent. apply app_inv_head in Hsent. subst sent.
  destruct (recv_all alloc msgs t rest B) as (t' & E1 & E2 & E3); auto;
    try (revert Hall; apply Forall_impl; intros ps (A1 & A2 & A3 & A4); rewrite <- payload_text; assumption).
  exists t'. rewrite !incoming_avail, !failure_tail. split; [|auto].
   apply recv_n_receives in E1. rewrite (map_ext payload msg_text); auto using payload_text.
Qed.

Example c03_example : exists st', sends V11 ex_sender [ex_parts; [PRaw (bs "second") false]] st' /\
  exists t', receives (fun _ => true) V11 (in_twos 100 (ws_wire st')) [bs "<a>1&lt;2&amp;3<b/></a>"; bs "second"] t'.
Proof.
  eexists. split.
  - econstructor; [vm_compute; reflexivity|]. econstructor; [vm_compute; reflexivity|]. constructor.
  - eexists. econstructor; [vm_compute; reflexivity|]. econstructor; [vm_compute; reflexivity|]. constructor.
Qed.
Print Assumptions c03_messages_in_sequence_partial.

(* ================================================================== *)
(** * C04: memory safety of the receiver *)

Definition safe (r : msgres) : Prop := forall u, r <> MUb u.

(** Full statement, false: a peer sending the chunk size "-1" makes the reader allocate 0 bytes and
    store 2^32 - 1 bytes into them. *)
Theorem c04_receive_safe_refuted : exists alloc t, ~ safe (nc_read_msg_io alloc V11 t).
Proof.
  exists (fun _ => true), [TData ([NL; HASH] ++ bs "-1" ++ [NL] ++ bs "X")].
  intros H. eapply H. vm_compute. reflexivity.
Qed.

(** A size of 2^32 + 2 makes it copy 2^32 + 2 bytes of which 2 were received. *)
Theorem c04_receive_uninit_refuted : exists alloc t, nc_read_msg_io alloc V11 t = MUb UbReadUninit.
Proof.
  exists (fun _ => true), [TData ([NL; HASH] ++ bs "4294967298" ++ [NL] ++ bs "XX")].
  vm_compute. reflexivity.
Qed.

(** What holds, (A): for every stream, provided the allocator refuses blocks of 0 bytes and of 2^31
    bytes or more. *)
Theorem c04_receive_safe_alloc_partial : forall alloc v t,
  alloc 0 = false -> (forall n, 2147483648 <= n -> alloc n = false) -> safe (nc_read_msg_io alloc v t).
Proof.
  intros alloc v t H0 H u E.
  assert (Hs : mno_ub (nc_read_msg_io alloc v t)).
  { destruct v; cbn [nc_read_msg_io].
    - apply safe10. left. split; assumption.
    - apply safe_A; [split; [assumption|]; intros n Hn; apply H; unfold w32 in Hn; lia|lia|reflexivity]. }
  rewrite E in Hs. exact Hs.
Qed.

(** What holds, (B): with any allocator, when the history carries less than 2^31 bytes, and (for 1.1)
    there is no '-' and no run of ten digits among them. *)
Theorem c04_receive_safe_stream_partial : forall alloc v t,
  N.of_nat (tbytes t) < 2147483648 ->
  (v = V11 -> ~ In "-"%char (incoming t) /\
              forall a d b, incoming t = a ++ d ++ b -> (forall c, In c d -> 48 <= N_of_ascii c <= 57) -> (length d < 10)%nat) ->
  safe (nc_read_msg_io alloc v t).
Proof.
  intros alloc v t Hl Hv u E.
  assert (Hs : mno_ub (nc_read_msg_io alloc v t)).
  { destruct v; cbn [nc_read_msg_io].
    - apply safe10. right. exact Hl.
    - destruct (Hv eq_refl) as [H1 H2]. rewrite incoming_avail in *. apply safe_B; [|lia|cbn [stored]; change (lenN (@nil ascii)) with 0; unfold w64; lia].
      split; [exact H1|]. intros p d q Ep Hd. apply (H2 p d q Ep). intros c Hc. apply is_digit_iff. now apply Hd. }
  rewrite E in Hs. exact Hs.
Qed.

(** Garbage that meets the conditions of (B): it ends in a transport failure, not in undefined behaviour. *)
Example c04_example :
  nc_read_msg_io (fun _ => true) V11 [TData (bs "junk #"); TData ([NL; HASH] ++ bs "99" ++ [NL] ++ bs "abc"); TEof]
  = MFail FDropped [].
Proof. reflexivity. Qed.
Print Assumptions c04_receive_safe_refuted.
Print Assumptions c04_receive_uninit_refuted.
Print Assumptions c04_receive_safe_alloc_partial.
Print Assumptions c04_receive_safe_stream_partial.

(* ================================================================== *)
(** * C05: RFC 6242 acceptance *)

(** Completeness: every RFC 6242 message whose chunks are at most 2^32 - 2 bytes is decoded. *)
Theorem c05_accepts_rfc6242_partial : forall s cs alloc t rest,
  rfc_chunks s cs -> cs <> [] -> Forall (fun c => lenN c < 4294967295) cs -> ~ In NUL (concat cs) ->
  lenN (concat cs) < 18446744073709550000 -> grants alloc (lenN (concat cs) + 1024) ->
  incoming t = s ++ rest ->
  exists t', nc_read_msg_io alloc V11 t = MMsg (concat cs) t' /\ incoming t' = rest /\ failure t' = failure t.
Proof.
  intros s cs alloc t rest Hs Hne Hl Hnn Hw Ha Hin.
  destruct (frames_of_rfc s cs Hs Hl) as [-> Hok].
  destruct (read11_exact alloc t cs rest) as (t' & E1 & E2 & E3); auto.
  - unfold w64. lia.
  - rewrite <- incoming_avail, Hin, <- app_assoc. reflexivity.
  - exists t'. rewrite E1, cstr_id by exact Hnn. rewrite !incoming_avail, !failure_tail. auto.
Qed.

(** The remaining chunk size, 2^32 - 1, which the RFC allows, is refused. *)
Theorem c05_largest_chunk_refuted : forall c s cs alloc t,
  rfc_chunks s cs -> lenN c = 4294967295 -> grants alloc 4294967296 ->
  incoming t = [NL; HASH] ++ bs "4294967295" ++ [NL] ++ c ++ s ->
  rfc_chunks (incoming t) (c :: cs) /\ forall m t', nc_read_msg_io alloc V11 t <> MMsg m t'.
Proof.
  intros c s cs alloc t Hs Hc Ha Hin. split.
  - rewrite Hin. apply rfc_chunk; [|lia|exact Hs]. rewrite Hc.
    replace (bs "4294967295") with (dec 4294967295) by reflexivity. apply rfc_size_of. lia.
  - rewrite incoming_avail in Hin. destruct (max_chunk alloc t c s) as [t1 E]; auto. intros m t'. rewrite E. discriminate.
Qed.

(** Soundness is false: sizes with a sign, leading white space or trailing text, and bytes before the
    chunk start, are accepted. *)
Theorem c05_rejects_others_refuted : exists s1 s2 s3,
  (forall m, ~ rfc_message s1 m) /\ (forall m, ~ rfc_message s2 m) /\ (forall m, ~ rfc_message s3 m) /\
  nc_read_msg_io (fun _ => true) V11 [TData s1] = MMsg (bs "abc") [] /\
  nc_read_msg_io (fun _ => true) V11 [TData s2] = MMsg (bs "abc") [] /\
  nc_read_msg_io (fun _ => true) V11 [TData s3] = MMsg (bs "abc") [].
Proof.
  exists ([NL; HASH] ++ bs "+3" ++ [NL] ++ bs "abc" ++ [NL; HASH; HASH; NL]),
         ([NL; HASH] ++ bs " 3 bytes" ++ [NL] ++ bs "abc" ++ [NL; HASH; HASH; NL]),
         (bs "junk" ++ [NL; HASH] ++ bs "3" ++ [NL] ++ bs "abc" ++ [NL; HASH; HASH; NL]).
  assert (Hhd : forall s m, rfc_message s m -> exists c r, s = [NL; HASH; c] ++ r /\ 48 <= N_of_ascii c <= 57).
  { intros s m (cs & H & Hne & _). destruct H as [|ds c s cs (H1 & H2 & _) _ _]; [congruence|].
    destruct ds as [|d ds]; [congruence|]. exists d. eexists. split; [reflexivity|]. apply H2. now left. }
  repeat split; try (intros m Hm; destruct (Hhd _ _ Hm) as (c & r & E & Hc); cbn in E; injection E; intros; subst; cbn in Hc; lia);
    try (intros m Hm; destruct (Hhd _ _ Hm) as (c & r & E & Hc); cbn in E; discriminate); reflexivity.
Qed.

(** What does hold for every delivered message: it is the concatenation, in order, of non-empty
    blocks of the stream, each right after a line whose number (as strtoul reads it) is the length of
    the block, each line right after an LF HASH, ended by an LF HASH and a line "#". *)
Theorem c05_delivered_bytes_partial : forall alloc t m t',
  nc_read_msg_io alloc V11 t = MMsg m t' ->
  exists segs skipped line,
    segs <> [] /\
    Forall (fun s => let '(before, l, c) := s in
              (exists a, before = a ++ [NL; HASH]) /\ (exists a, l = a ++ [NL]) /\ c <> [] /\ strtoul (cstr l) = lenN c) segs /\
    (exists a, skipped = a ++ [NL; HASH]) /\ cstr line = [HASH; NL] /\
    incoming t = concat (map (fun s => let '(before, l, c) := s in before ++ l ++ c) segs) ++ skipped ++ line ++ incoming t' /\
    m = cstr (concat (map snd segs)).
Proof.
  intros alloc t m t' H. unfold nc_read_msg_io, nc_read_msg11 in H.
  apply msg11_loop_sound in H. destruct H as (segs & j & H1 & H2 & H3 & (l & H4 & H5 & H6) & H7 & _).
  exists segs, j, l. split; [destruct H3 as [H3|H3]; [exact H3|now elim H3]|]. split; [exact H1|]. split; [exact H2|]. split; [exact H5|].
  rewrite !incoming_avail. auto.
Qed.

Example c05_example : rfc_chunks ([NL; HASH] ++ bs "4" ++ [NL] ++ bs "<a>x" ++ [NL; HASH] ++ bs "10" ++ [NL] ++ bs "0123456789" ++ [NL; HASH; HASH; NL])
   [bs "<a>x"; bs "0123456789"] /\
  nc_read_msg_io (fun _ => true) V11 [TData ([NL; HASH] ++ bs "4" ++ [NL] ++ bs "<a>x" ++ [NL; HASH] ++ bs "10" ++ [NL] ++ bs "0123456789" ++ [NL; HASH; HASH; NL])]
  = MMsg (bs "<a>x0123456789") [].
Proof.
  split; [|reflexivity].
  apply (rfc_chunk (bs "4") (bs "<a>x") ([NL; HASH] ++ bs "10" ++ [NL] ++ bs "0123456789" ++ [NL; HASH; HASH; NL])); [apply (rfc_size_of 4); lia|vm_compute; discriminate|].
  apply (rfc_chunk (bs "10") (bs "0123456789") [NL; HASH; HASH; NL]); [apply (rfc_size_of 10); lia|vm_compute; discriminate|constructor].
Qed.
Example c05_refuted_reachable : lenN (repeat "x"%char (N.to_nat 4294967295)) = 4294967295.
Proof. unfold lenN. rewrite repeat_length. apply Nnat.N2Nat.id. Qed.
Print Assumptions c05_accepts_rfc6242_partial.
Print Assumptions c05_largest_chunk_refuted.
Print Assumptions c05_rejects_others_refuted.
Print Assumptions c05_delivered_bytes_partial.

(* ================================================================== *)
(** * C06: output buffering *)

(** For every sequence of writes: the 1024-byte buffer is never overrun; whatever happens, what went
    on the wire is a beginning of one RFC 6242 chunked message (1.1) or of the text and the end marker
    (1.0) carrying exactly the payload; if the message is reported as sent, all of it is on the wire; if an
    error is reported, the session is no longer usable. *)
Theorem c06_output_partial : forall v ps st o st',
  usable st -> Forall reasonable ps -> nc_write_msg_io v st ps = (o, st') ->
  o <> MsgUb /\
  exists whole sent missing,
    match v with
    | V11 => exists cs, rfc_chunks whole cs /\ concat cs = payload ps
    | V10 => whole = payload ps ++ bs "]]>]]>"
    end /\
    whole = sent ++ missing /\ ws_wire st' = ws_wire st ++ sent /\
    (o = MsgSent -> missing = [] /\ usable st') /\ (o = MsgError -> ws_ok st' = false).
Proof.
  intros v ps st o st' [Hok He] Hr Hs. apply reasonable_small in Hr.
  pose proof (write_msg_spec v st ps Hok He Hr) as H. rewrite Hs in H.
  destruct H as (s & r & Hf & Hw & Hu & He' & Hsent & Herr). split; [exact Hu|].
  destruct (msg_chunks_content ps Hr) as [Hc1 Hc2].
  exists (frames v (msg_chunks ps) ++ frame_end v), s, r. split; [|split; [exact Hf|split; [exact Hw|split; [|exact Herr]]]].
  - destruct v.
    + rewrite frames10, Hc2, payload_text. reflexivity.
    + exists (msg_chunks ps). split; [now apply rfc_of_frames|]. now rewrite Hc2, payload_text.
  - intros ->. destruct (Hsent eq_refl). split; [assumption|]. split; assumption.
Qed.

(** The bound on a single write is needed: with one byte buffered, a write of 2^32 - 1 bytes (the sum
    wraps to 0) goes on the wire before the buffered byte. *)
Theorem c06_huge_write_refuted : exists b data st b' st',
  lenN data < 4294967296 /\ nc_write_clb V10 st b data false = (WSent, b', st') /\
  ws_wire st' ++ b' <> ws_wire st ++ b ++ data.
Proof.
  assert (HD : exists data, lenN data = 4294967295 /\ exists r, data = "x"%char :: r).
  { exists ("x"%char :: repeat "x"%char (N.to_nat 4294967294)). split; [|now eexists].
    rewrite lenN_cons. unfold lenN. rewrite repeat_length, Nnat.N2Nat.id. reflexivity. }
  destruct HD as (data & Hl & r & E2).
  exists (bs "a"), data, (mkW true [] [WAcc 4294967295]), (bs "a"), (mkW true data []).
  split; [rewrite Hl; reflexivity|]. split.
  - unfold nc_write_clb. rewrite Hl. change (lenN (bs "a")) with 1.
    change (negb (1 =? 0) && (WRITE_BUFSIZE <? (1 + 4294967295) mod w32)) with false.
    change (negb false && (WRITE_BUFSIZE <? 4294967295)) with true.
    unfold nc_write_starttag_and_msg, nc_write. cbn [ws_ok ws_ev ws_wire nc_write_loop].
    rewrite takeN_all by (rewrite Hl; lia). rewrite dropN_all by (rewrite Hl; lia). reflexivity.
  - cbn [ws_wire]. intros E. rewrite E2 in E. discriminate.
Qed.

(** And so is the absence of transport write errors: such an error in the middle of a message does not
    make the session unusable, and the message is reported as sent although nothing of it was. *)
Theorem c06_write_error_refuted : exists st ps st',
  ws_ok st = true /\ Forall reasonable ps /\ nc_write_msg_io V11 st ps = (MsgSent, st') /\
  ws_ok st' = true /\ payload ps <> [] /\ ws_wire st' = ws_wire st.
Proof.
  exists (mkW true [] [WErr; WAcc 10000]), [PRaw (bs "<rpc/>") false]. eexists.
  split; [reflexivity|]. split; [repeat constructor|]. split; [vm_compute; reflexivity|]. split; [reflexivity|]. split; [discriminate|reflexivity].
Qed.

(** 1500 bytes written 3 at a time: two chunks, of 1023 and 477 bytes. *)
Example c06_example : exists st',
  nc_write_msg_io V11 (mkW true [] (repeat (WAcc 2000) 10)) (repeat (PRaw (bs "abc") false) 500) = (MsgSent, st') /\
  firstn 7 (ws_wire st') = [NL; HASH] ++ bs "1023" ++ [NL] /\
  firstn 6 (skipn 1030 (ws_wire st')) = [NL; HASH] ++ bs "477" ++ [NL].
Proof. eexists. split; [vm_compute; reflexivity|]. split; reflexivity. Qed.
Print Assumptions c06_output_partial.
Print Assumptions c06_huge_write_refuted.
Print Assumptions c06_write_error_refuted.

(* ================================================================== *)
(** * C07: XML escaping *)

(** At every fill level of the buffer ([b]), writing [d] as XML content adds (to what was buffered) text
    that contains no markup character and denotes exactly [d], and nothing else ([xml_text] is
    deterministic: [c07_denotes_one_text]). *)
Theorem c07_escaping : forall v st b d b' st',
  usable st -> lenN b <= 1024 -> lenN d < 4294966272 -> nc_write_clb v st b d true = (WSent, b', st') ->
  exists cs text,
    ws_wire st' = ws_wire st ++ concat (map (frame_chunk v) cs) /\ lenN b' <= 1024 /\
    concat cs ++ b' = b ++ text /\ xml_text text d /\ ~ In "<"%char text /\ ~ In ">"%char text.
Proof.
  intros v st b d b' st' [Hok He] Hb Hd Hw.
  assert (Hd' : lenN d + WRITE_BUFSIZE < w32) by (unfold WRITE_BUFSIZE, w32; lia).
  pose proof (clb_spec v st b d true Hb Hd' He) as H. rewrite Hw in H.
  pose proof (iclb_content b d true Hb Hd') as Hc. cbv zeta in Hc. destruct (iclb b d true) as [cs ib].
  cbn [clbspec fst snd] in *. destruct H as (H1 & (_ & _ & H2) & H3). rewrite Hok in H2.
  specialize (H3 Hok eq_refl). subst ib. destruct H2 as (s & r & Hf & Hwr & Hr & _). subst r. rewrite app_nil_r in Hf.
  destruct Hc as (_ & Hc & _). exists cs, (escape d).
  split; [rewrite Hwr, <- Hf; reflexivity|]. split; [exact H1|]. split; [rewrite escape_esc1; exact Hc|].
  split; [apply escape_text|]. exact (xml_text_clean _ _ (escape_text d)).
Qed.

Theorem c07_denotes_one_text : forall s d1 d2, xml_text s d1 -> xml_text s d2 -> d1 = d2.
Proof. exact xml_text_fun. Qed.

(** The buffer is almost full (1020 bytes): it is flushed first. *)
Example c07_example : exists st',
  nc_write_clb V10 (mkW true [] [WAcc 5000]) (repeat "x"%char 1020) (bs "a<&>b") true
  = (WSent, bs "a&lt;&amp;&gt;b", st') /\ lenN (ws_wire st') = 1020.
Proof. eexists. split; [vm_compute; reflexivity|reflexivity]. Qed.
Print Assumptions c07_escaping.
Print Assumptions c07_denotes_one_text.
