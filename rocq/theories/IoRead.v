(** Model of message reading, src/io.c 57-386. *)
From Coq Require Import Ascii String NArith ZArith Bool Lia List.
From Verif Require Import Bytes.
Import ListNotations.
Local Open Scope N_scope.

(** What one transport read attempt may yield (io.c 76-138).  The three transports (file
    descriptor / unix socket, SSH channel, TLS) are merged: each read attempt returns some bytes,
    or nothing for now, or end of stream, or an error.  [TAgain e] / [TIntr e] carry whether one of
    the two time limits (io.c 145) has elapsed when it is checked after the attempt; clocks are not
    modelled otherwise.  A read takes bytes from the front of the first fragment, at most as many
    as asked for, so arbitrary lists of fragments give arbitrary short reads.  An empty [TData] is
    skipped (a transport never produces it). *)
Inductive tev :=
| TData (f : bytes)
| TAgain (expired : bool)
| TIntr (expired : bool)
| TEof
| TErr.

(** Why a read failed.  The first three set the session invalid (io.c 91-158), the others do not. *)
Inductive rfail :=
| FDropped      (* end of stream: status invalid, reason dropped *)
| FIoErr        (* read error: status invalid, reason other *)
| FTimeout      (* time limit: status invalid, reason other *)
| FMem          (* allocation failed *)
| FSign.        (* byte count does not fit an int and looks like -1 *)

(** Undefined behaviours of interest. *)
Inductive ub :=
| UbWriteOOB    (* store outside an allocated buffer *)
| UbReadUninit  (* copy of bytes never stored *).

(** Outcome of a reading function.  [RWait]: the trace of transport events ended before the call
    returned (the call is still blocked).  [RFuel] is the artificial outcome of the loop bound of
    the model; theorem [nc_read_until_no_fuel] shows it never happens. *)
Inductive rres (A : Type) :=
| ROk (a : A) (t : list tev)
| RFail (w : rfail) (t : list tev)
| RWait
| RFuel
| RUb (u : ub).
Arguments ROk {A}. Arguments RFail {A}. Arguments RWait {A}. Arguments RFuel {A}. Arguments RUb {A}.

Definition push (f : bytes) (t : list tev) : list tev :=
  match f with [] => t | _ => TData f :: t end.

(** Lines 74-168: the loop of [nc_read].  [cap]: bytes available at [buf]; [readd], [count] as in C. *)
Fixpoint nc_read_loop (t : list tev) (cap readd count : N) : rres bytes :=
  match t with
  | [] => RWait
  | TData f :: t' =>
      let got := takeN (count - readd) f in
      let readd' := readd + lenN got in
      if cap <? readd' then RUb UbWriteOOB
      else if readd' <? count then
        match nc_read_loop t' cap readd' count with
        | ROk bs t'' => ROk (got ++ bs) t''
        | e => e
        end
      else if cap <=? count then RUb UbWriteOOB              (* buf[count] = '\0', io.c 166 *)
      else ROk got (push (dropN (count - readd) f) t')
  | TAgain false :: t' => nc_read_loop t' cap readd count
  | TIntr false :: t' => nc_read_loop t' cap readd count
  | TAgain true :: t' => RFail FTimeout t'
  | TIntr true :: t' => RFail FTimeout t'
  | TEof :: t' => RFail FDropped t'
  | TErr :: t' => RFail FIoErr t'
  end.

(** Lines 57-170: [nc_read(session, buf, count, ...)] on a running or starting session with a
    connected transport; [count] is a uint32_t.  Returns exactly [count] bytes or fails. *)
Definition nc_read (t : list tev) (cap count : N) : rres bytes :=
  if count =? 0 then ROk [] t else nc_read_loop t cap 0 count.

Section Alloc.
(** [alloc n]: whether malloc/realloc of [n] bytes succeeds (any policy). *)
Variable alloc : N -> bool.

(** Lines 172-197: [nc_read_chunk]; [len] is a size_t, the allocation is [len + 1] modulo 2^64 and the
    count handed to [nc_read] is [len] modulo 2^32. The returned bytes are those stored in the chunk. *)
Definition nc_read_chunk (t : list tev) (len : N) : rres bytes :=
  if len =? 0 then ROk [] t
  else
    let cap := (len + 1) mod w64 in
    if negb (alloc cap) then RFail FMem t
    else
      match nc_read t cap (len mod w32) with
      | ROk b t' => match b with
                    | [] => RFail FMem t'          (* r <= 0: freed, -1 *)
                    | _ => ROk b t'
                    end
      | e => e
      end.

(** Lines 244-252: the partial-match loop, [i] counting down, [content] = bytes stored so far.
    strncmp() is applied to at most [i] bytes on both sides and the tags contain no NUL, so it is
    equality of [i] bytes. *)
Fixpoint match_tail (tag content : bytes) (i : nat) (matched : nat) : nat :=
  match i with
  | O => matched
  | S i' =>
      if strncmp_eq (skipn matched tag) (skipn (length content - i) content) i
      then (matched + i)%nat
      else match_tail tag content i' 0
  end.

Definition BUFFERSIZE : N := 512.

(** Lines 217-257: the loop of [nc_read_until] with [limit] = 0 (all callers).  [content] = the bytes
    stored in the buffer ([count] is its length), [size] as in C (the buffer has [size + 1] bytes). *)
Fixpoint nc_read_until_loop (fuel : nat) (t : list tev) (tag content : bytes) (size : N) (matched : nat) : rres bytes :=
  match fuel with
  | O => RFuel
  | S fuel' =>
      let n := (length tag - matched)%nat in
      let grow := size <=? lenN content + N.of_nat n in
      let size' := if grow then size + BUFFERSIZE else size in
      if grow && negb (alloc (size' + 1)) then RFail FMem t
      else
        match nc_read t (size' + 1 - lenN content) (N.of_nat n) with
        | ROk b t' =>
            let content' := content ++ b in
            let matched' := match_tail tag content' n matched in
            if (matched' =? length tag)%nat then ROk content' t'
            else nc_read_until_loop fuel' t' tag content' size' matched'
        | e => e
        end
  end.

(** Number of payload bytes in a trace; bounds the iterations since each consumes at least one. *)
Fixpoint tbytes (t : list tev) : nat :=
  match t with
  | TData f :: t' => (length f + tbytes t')%nat
  | _ :: t' => tbytes t'
  | [] => O
  end.

(** Lines 199-268: [nc_read_until], [limit] = 0. *)
Definition nc_read_until (t : list tev) (tag : bytes) : rres bytes :=
  if negb (alloc (BUFFERSIZE + 1)) then RFail FMem t
  else nc_read_until_loop (S (tbytes t)) t tag [] BUFFERSIZE 0.

(** Result of [nc_read_msg_io]: the message as the C string the parser sees (ly_in_new_memory gets a
    NUL-terminated buffer), or the -1 / -2 return values. *)
Inductive msgres :=
| MMsg (m : bytes) (t : list tev)      (* 1 *)
| MFail (w : rfail) (t : list tev)     (* -1 *)
| MMalformed (t : list tev)            (* -2 *)
| MWait
| MFuel
| MUb (u : ub).

Definition lift_fail {A} (r : rres A) (k : A -> list tev -> msgres) : msgres :=
  match r with
  | ROk a t => k a t
  | RFail w t => MFail w t
  | RWait => MWait
  | RFuel => MFuel
  | RUb u => MUb u
  end.

Definition ENDTAG10 : bytes := bs "]]>]]>".
Definition CHUNK_TAG : bytes := [NL; HASH].

(** Lines 302-311, version 1.0.  [r] is an int: a count of 2^31 or more becomes negative; when it is
    exactly 2^32-1 it is taken for -1, otherwise the store to [data\[r - 6\]] is outside the buffer. *)
Definition nc_read_msg10 (t : list tev) : msgres :=
  lift_fail (nc_read_until t ENDTAG10) (fun data t' =>
    let r := lenN data mod w32 in
    if r =? w32 - 1 then MFail FSign t'
    else if w31 <=? r then MUb UbWriteOOB
    else MMsg (cstr (takeN (r - 6) data)) t').

(** The [len] bytes stored behind the pointer [data]. *)
Definition stored (data : option bytes) : bytes := match data with None => [] | Some d => d end.

(** Lines 313-357, version 1.1, one iteration per chunk.  [data] = [None] for the NULL pointer, else the
    bytes stored in it, whose count is [len]. *)
Fixpoint nc_read_msg11_loop (fuel : nat) (t : list tev) (data : option bytes) : msgres :=
  match fuel with
  | O => MFuel
  | S fuel' =>
      lift_fail (nc_read_until t CHUNK_TAG) (fun _ t1 =>
      lift_fail (nc_read_until t1 [NL]) (fun line t2 =>
        if beqb (cstr line) (bs "#" ++ [NL]) then
          match data with
          | None => MMalformed t2
          | Some d => MMsg (cstr d) t2
          end
        else
          let chunk_len := strtoul (cstr line) in
          if chunk_len =? 0 then MMalformed t2
          else
            lift_fail (nc_read_chunk t2 chunk_len) (fun chunk t3 =>
              if lenN chunk =? w32 - 1 then MFail FSign t3         (* r == -1 after conversion to int *)
              else
                let old := stored data in
                let newsize := (lenN old + chunk_len + 1) mod w64 in
                if negb (alloc newsize) then MFail FMem t3
                else if lenN chunk <? chunk_len then MUb UbReadUninit   (* memcpy(.., chunk, chunk_len) *)
                else if newsize <=? lenN old + chunk_len then MUb UbWriteOOB
                else nc_read_msg11_loop fuel' t3 (Some (old ++ chunk)))))
  end.

Definition nc_read_msg11 (t : list tev) : msgres := nc_read_msg11_loop (S (tbytes t)) t None.

Inductive version := V10 | V11.

(** Lines 270-386: [nc_read_msg_io] on a running session once the IO lock is held. *)
Definition nc_read_msg_io (v : version) (t : list tev) : msgres :=
  match v with V10 => nc_read_msg10 t | V11 => nc_read_msg11 t end.

End Alloc.
