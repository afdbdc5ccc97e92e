(** Model of message writing, src/io.c 560-1082. *)
From Coq Require Import Ascii String NArith ZArith Bool Lia List.
From Verif Require Import Bytes IoRead.
Import ListNotations.
Local Open Scope N_scope.

(** One transport write attempt inside [nc_write] (io.c 590-646), transports merged.
    [WAcc k]: up to [k] bytes accepted; [WAgain]/[WIntr]: nothing accepted, try again;
    [WErr]: the write call failed (-1 is returned, the session status is NOT changed, io.c 603-605, 622-625);
    [WClosed]: peer found disconnected (io.c 583-588, 611-620): status invalid, reason dropped. *)
Inductive wev := WAcc (k : N) | WAgain | WIntr | WErr | WClosed.

(** Session as the writer sees it: [ws_ok] = status is running or starting, [ws_wire] = bytes
    handed to the transport so far, [ws_ev] = future transport events. *)
Record wst := mkW { ws_ok : bool; ws_wire : bytes; ws_ev : list wev }.

(** [WBlocked]: the call did not return within the given events; [WUb]: store outside [buf]. *)
Inductive wout := WSent | WFailed | WBlocked | WUb.

(** Lines 590-646: the do-while loop; [rem] = bytes not yet accepted. *)
Fixpoint nc_write_loop (evs : list wev) (wire rem : bytes) : wout * wst :=
  match evs with
  | [] => (WBlocked, mkW true wire [])
  | WAcc k :: e =>
      let wire' := wire ++ takeN k rem in
      match dropN k rem with
      | [] => (WSent, mkW true wire' e)
      | rem' => nc_write_loop e wire' rem'
      end
  | WAgain :: e | WIntr :: e =>
      match rem with
      | [] => (WSent, mkW true wire e)
      | _ => nc_write_loop e wire rem
      end
  | WErr :: e => (WFailed, mkW true wire e)
  | WClosed :: e => (WFailed, mkW false wire e)
  end.

(** Lines 576-649 [nc_write]. *)
Definition nc_write (st : wst) (buf : bytes) : wout * wst :=
  if ws_ok st then nc_write_loop (ws_ev st) (ws_wire st) buf else (WFailed, st).

(** Sequencing of C statements of the form "if (r == -1) return -1". *)
Definition andthen (r : wout * wst) (k : wst -> wout * wst) : wout * wst :=
  match r with (WSent, st) => k st | _ => r end.

(** Lines 660-688 [nc_write_starttag_and_msg]; "%u" of the uint32_t count. *)
Definition nc_write_starttag_and_msg (v : version) (st : wst) (buf : bytes) : wout * wst :=
  match v with
  | V11 => andthen (nc_write st ([NL; HASH] ++ dec (lenN buf) ++ [NL])) (fun st' => nc_write st' buf)
  | V10 => nc_write st buf
  end.

(** Lines 697-709 [nc_write_endtag]. *)
Definition nc_write_endtag (v : version) (st : wst) : wout * wst :=
  nc_write st (match v with V11 => [NL; HASH; HASH; NL] | V10 => ENDTAG10 end).

Definition WRITE_BUFSIZE : N := 1024.

(** Lines 719-730 [nc_write_clb_flush].  [b] = the [len] bytes in the buffer; it is empty afterwards
    whatever the result. *)
Definition nc_write_clb_flush (v : version) (st : wst) (b : bytes) : wout * wst :=
  match b with [] => (WSent, st) | _ => nc_write_starttag_and_msg v st b end.

(** Lines 791-810: what one character of XML content becomes. *)
Definition esc1 (c : ascii) : bytes :=
  if Ascii.eqb c "&" then bs "&amp;"
  else if Ascii.eqb c "<" then bs "&lt;"
  else if Ascii.eqb c ">" then bs "&gt;"
  else [c].

(** memcpy(&warg->buf[warg->len], d, |d|): bounds-checked. *)
Definition put (b d : bytes) : option bytes :=
  if WRITE_BUFSIZE <? lenN b + lenN d then None else Some (b ++ d).

(** Lines 781-811: the loop over XML content.  State: (outcome, buffer, session). *)
Fixpoint nc_write_xml_loop (v : version) (st : wst) (b : bytes) (data : bytes) : wout * bytes * wst :=
  match data with
  | [] => (WSent, b, st)
  | c :: data' =>
      let '(o, b1, st1) :=
        if WRITE_BUFSIZE <=? lenN b + 5 then
          let '(o, st1) := nc_write_clb_flush v st b in (o, [], st1)
        else (WSent, b, st) in
      match o with
      | WSent =>
          match put b1 (esc1 c) with
          | None => (WUb, b1, st1)
          | Some b2 => nc_write_xml_loop v st1 b2 data'
          end
      | _ => (o, b1, st1)
      end
  end.

(** Lines 742-821 [nc_write_clb] with non-NULL [buf]; [count] = length of [data] is a uint32_t, and the
    sum [len + count] (line 769) is computed modulo 2^32. *)
Definition nc_write_clb (v : version) (st : wst) (b : bytes) (data : bytes) (xml : bool) : wout * bytes * wst :=
  let count := lenN data in
  let '(o, b1, st1) :=
    if negb (lenN b =? 0) && (WRITE_BUFSIZE <? (lenN b + count) mod w32) then
      let '(o, st1) := nc_write_clb_flush v st b in (o, [], st1)
    else (WSent, b, st) in
  match o with
  | WSent =>
      if negb xml && (WRITE_BUFSIZE <? count) then
        let '(o, st2) := nc_write_starttag_and_msg v st1 data in (o, b1, st2)
      else if xml then nc_write_xml_loop v st1 b1 data
      else match put b1 data with
           | None => (WUb, b1, st1)
           | Some b2 => (WSent, b2, st1)
           end
  | _ => (o, b1, st1)
  end.

(** Lines 748-765: [nc_write_clb] with NULL [buf]: flush and end tag. *)
Definition nc_write_clb_end (v : version) (st : wst) (b : bytes) : wout * wst :=
  andthen (nc_write_clb_flush v st b) (fun st' => nc_write_endtag v st').

(** Lines 826-838 [nc_write_xmlclb]: called by libyang; the size_t count is truncated to uint32_t. *)
Definition nc_write_xmlclb (v : version) (st : wst) (b : bytes) (data : bytes) : wout * bytes * wst :=
  nc_write_clb v st b (takeN (lenN data mod w32) data) false.

(** What [nc_write_msg_io] does in sequence.  [PRaw]: a direct [nc_write_clb] call whose result is
    ignored.  [PPrint pieces ok]: lyd_print_clb(); libyang calls [nc_write_xmlclb] with the pieces, stops
    at the first failure, and fails by itself afterwards if [ok] is false. *)
Inductive part :=
| PRaw (data : bytes) (xml : bool)
| PPrint (pieces : list bytes) (ok : bool).

(** lyd_print_clb: (result is success, buffer, session) or blocked/UB. *)
Fixpoint run_pieces (v : version) (st : wst) (b : bytes) (ps : list bytes) : wout * bytes * wst :=
  match ps with
  | [] => (WSent, b, st)
  | p :: ps' =>
      match nc_write_xmlclb v st b p with
      | (WSent, b', st') => run_pieces v st' b' ps'
      | r => r
      end
  end.

(** Lines 883-1060 (body of the switch).  [inl true]: go on to the flush; [inl false]: goto cleanup with
    NC_MSG_ERROR; [inr]: blocked or UB. *)
Fixpoint run_parts (v : version) (st : wst) (b : bytes) (ps : list part) : (bool + wout) * bytes * wst :=
  match ps with
  | [] => (inl true, b, st)
  | PRaw d xml :: ps' =>
      match nc_write_clb v st b d xml with
      | (WSent, b', st') | (WFailed, b', st') => run_parts v st' b' ps'     (* result ignored *)
      | (o, b', st') => (inr o, b', st')
      end
  | PPrint pieces ok :: ps' =>
      match run_pieces v st b pieces with
      | (WSent, b', st') => if ok then run_parts v st' b' ps' else (inl false, b', st')
      | (WFailed, b', st') => (inl false, b', st')
      | (o, b', st') => (inr o, b', st')
      end
  end.

(** Result of [nc_write_msg_io]: the message type (sent) or NC_MSG_ERROR. *)
Inductive wmsg := MsgSent | MsgError | MsgBlocked | MsgUb.

(** Lines 845-1069 [nc_write_msg_io] once the IO lock is held. *)
Definition nc_write_msg_io (v : version) (st : wst) (ps : list part) : wmsg * wst :=
  if negb (ws_ok st) then (MsgError, st)
  else
    match run_parts v st [] ps with
    | (inl true, b, st1) =>
        match nc_write_clb_end v st1 b with
        | (WBlocked, st2) => (MsgBlocked, st2)
        | (WUb, st2) => (MsgUb, st2)
        | (_, st2) => if ws_ok st2 then (MsgSent, st2) else (MsgError, st2)
        end
    | (inl false, _, st1) => (MsgError, st1)
    | (inr WUb, _, st1) => (MsgUb, st1)
    | (inr _, _, st1) => (MsgBlocked, st1)
    end.

(* ------------------------------------------------------------------ *)
(** ** The messages (lines 883-1058) *)

Definition QUOTE : ascii := """"%char.
Definition NS_BASE : bytes := bs "urn:ietf:params:xml:ns:netconf:base:1.0".
Definition NS_NOTIF : bytes := bs "urn:ietf:params:xml:ns:netconf:notification:1.0".
Definition quoted (s : bytes) : bytes := QUOTE :: s ++ [QUOTE].

(** Lines 884-918: rpc.  [msgid] is the uint64_t counter before the send (the id on the wire is +1 mod 2^64);
    [op] = what libyang prints for the operation; [action]: wrapped in <action>. *)
Definition rpc_parts (msgid : N) (attrs : bytes) (action : bool) (op : list bytes) : list part :=
  [PRaw (bs "<rpc xmlns=" ++ quoted NS_BASE ++ bs " message-id=" ++ quoted (dec ((msgid + 1) mod w64))
         ++ attrs ++ bs ">") false]
  ++ (if action then [PRaw (bs "<action xmlns=" ++ quoted (bs "urn:ietf:params:xml:ns:yang:1") ++ bs ">") false] else [])
  ++ [PPrint op true]
  ++ (if action then [PRaw (bs "</action>") false] else [])
  ++ [PRaw (bs "</rpc>") false].

(** Lines 1020-1032: notification. *)
Definition notif_parts (eventtime : bytes) (ntf : list bytes) : list part :=
  [PRaw (bs "<notification xmlns=" ++ quoted NS_NOTIF ++ bs ">") false;
   PRaw (bs "<eventTime>") false; PRaw eventtime false; PRaw (bs "</eventTime>") false;
   PPrint ntf true; PRaw (bs "</notification>") false].

(** Lines 1034-1059: hello; [sid] = [Some id] on the server, [None] on the client. *)
Definition hello_parts (caps : list bytes) (sid : option N) : list part :=
  [PRaw (bs "<hello xmlns=" ++ quoted NS_BASE ++ bs "><capabilities>") false]
  ++ flat_map (fun c => [PRaw (bs "<capability>") false; PRaw c true; PRaw (bs "</capability>") false]) caps
  ++ [match sid with
      | Some id => PRaw (bs "</capabilities><session-id>" ++ dec id ++ bs "</session-id></hello>") false
      | None => PRaw (bs "</capabilities></hello>") false
      end].

(** Lines 920-1018: rpc-reply; the envelope is printed by libyang as a whole. *)
Definition reply_parts (reply : list bytes) : list part := [PPrint reply true].
