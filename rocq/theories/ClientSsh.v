(** The SSH client: src/session_client_ssh.c 327-337, 449-610 (host key), 999-1110 (key pairs), 1170-1183, 1292-1560 (authentication),
    1873-1933 (additional channels). *)
From Coq Require Import String Ascii NArith ZArith Bool List.
From Verif Require Import Bytes CStr.
Import ListNotations.
Local Open Scope list_scope.

(* ------------------------------------------------------------------ *)
(** ** nc_client_ssh_auth_hostkey_check, lines 449-610; built without DNSSEC and with termios *)

Inductive mode := Ask | Strict | AcceptNew | Accept | Skip.
(** ssh_session_is_known_server(). *)
Inductive known := KnownOk | KnownChanged | KnownOther | KnownNotFound | KnownUnknown | KnownError.

Definition space (c : ascii) : bool := let n := N_of_ascii c in N.eqb n 32 || ((9 <=? n) && (n <=? 13))%N.
Fixpoint skip_blank (s : bytes) : bytes := match s with [] => [] | c :: r => if space c then skip_blank r else s end.
(** fscanf("%4s"), line 560, after the white space: the word of at most [n] characters and what follows. *)
Fixpoint word (n : nat) (s : bytes) : bytes * bytes :=
  match n, s with
  | S n, c :: r => if space c then ([], s) else let '(w, t) := word n r in (c :: w, t)
  | _, _ => ([], s)
  end.
(** Line 564: to the end of the line. *)
Fixpoint after_nl (s : bytes) : bytes := match s with [] => [] | c :: r => if Ascii.eqb c "010"%char then r else after_nl r end.
(** Lines 559-580: [true] for yes.  Each round takes at least one character, so that the fuel is enough. *)
Fixpoint ask (fuel : nat) (input : bytes) : bool :=
  match fuel with
  | O => false
  | S fuel =>
    match skip_blank input with
    | [] => false
    | s => let '(w, t) := word 4 s in
           if streq w (bs "yes") then true else if streq w (bs "no") then false else ask fuel (after_nl t)
    end
  end.

(** What the check meets: [h_key]: the key of the server and its hash are to be had (lines 340-371); [h_known]; [h_update]: the entry can be added;
    [h_tty]: input and output can be opened and written; [h_input]: what the user types.  Result: accepted, and whether an entry was added. *)
Record host := { h_key : bool; h_known : known; h_update : bool; h_tty : bool; h_input : bytes }.
Definition hostkey_check (m : mode) (h : host) : bool * bool :=
  match m with
  | Skip => (true, false)
  | _ =>
    if negb (h_key h) then (false, false)
    else match h_known h with
         | KnownOk => (true, false)
         | KnownChanged => (match m with Accept => true | _ => false end, false)
         | KnownError => (false, false)
         | KnownOther | KnownNotFound | KnownUnknown =>
           match m with
           | Strict => (false, false)
           | AcceptNew | Accept => (h_update h, h_update h)
           | _ => if negb (h_tty h) then (false, false)
                  else if ask (S (length (h_input h))) (h_input h) then (true, h_update h) else (false, false)
           end
         end
  end.

(* ------------------------------------------------------------------ *)
(** ** connect_ssh_session, lines 1292-1560 *)

(** The result of a request; a loop that waits while the answer is SSH_AUTH_AGAIN gives the last answer, [AAgain] on timeout. *)
Inductive ares := ASuccess | ADenied | APartial | AError | AAgain | AInfo.
Inductive conn := COk | CAgain | CError.
Inductive meth := Interactive | Password | PublicKey.
Definition meth_eqb (a b : meth) : bool := match a, b with Interactive, Interactive | Password, Password | PublicKey, PublicKey => true | _, _ => false end.

(** What happened: the requests with their answers.  [ETry] asks whether a key would do, [ESign] authenticates with it. *)
Inductive ev := EHostkey (ok : bool) | ENone (r : ares) | EMethod (m : meth) | EPassword (r : ares) | EKbd (r : ares) | ETry (r : ares) | ESign (r : ares).

(** A step of ssh_userauth_kbdint(): prompts, each of which may be missing or its answer refused, or an answer. *)
Inductive kbd := KInfo (prompts : list (bool * bool)) | KAns (r : ares).
(** A key pair: can the public key be imported, the answers of the server, can the private key be imported (with the passphrase). *)
Record key := { k_pub : bool; k_try : ares; k_priv : bool; k_sign : ares }.
Record remote := { r_conn : conn; r_mode : mode; r_host : host; r_none : ares; r_offers : meth -> bool; r_password : option ares; r_kbd : list kbd; r_keys : list key }.

(** Lines 1404-1440.  [None]: the server goes on asking for ever. *)
Fixpoint kbd_loop (l : list kbd) : option (ares * list ev) :=
  match l with
  | [] => None
  | KAns AInfo :: r => match kbd_loop r with Some (x, t) => Some (x, EKbd AInfo :: t) | None => None end
  | KAns x :: _ => Some (x, [EKbd x])
  | KInfo ps :: r =>
    if forallb (fun p => fst p && snd p) ps
    then match kbd_loop r with Some (x, t) => Some (x, EKbd AInfo :: t) | None => None end
    else Some (AError, [EKbd AInfo])
  end.
(** Lines 1455-1518; [ra] is [ret_auth] before. *)
Fixpoint pk_loop (l : list key) (ra : ares) : ares * list ev :=
  match l with
  | [] => (ra, [])
  | k :: r =>
    if negb (k_pub k) then pk_loop r ra
    else match k_try k with
         | ADenied => let '(x, t) := pk_loop r ADenied in (x, ETry ADenied :: t)
         | ASuccess =>
           if negb (k_priv k) then let '(x, t) := pk_loop r ASuccess in (x, ETry ASuccess :: t)
           else match k_sign k with
                | ADenied => let '(x, t) := pk_loop r ADenied in (x, ETry ASuccess :: ESign ADenied :: t)
                | x => (x, [ETry ASuccess; ESign x])
                end
         | x => (x, [ETry x])
         end
  end.
(** Lines 1360-1374: [p] is auth_pref. *)
Definition choose (avail : meth -> bool) (p : meth -> Z) : option meth :=
  let '(a, pref) := if avail Interactive then (Some Interactive, p Interactive) else (None, 0%Z) in
  let '(a, pref) := if avail Password && (pref <? p Password)%Z then (Some Password, p Password) else (a, pref) in
  if avail PublicKey && (pref <? p PublicKey)%Z then Some PublicKey else a.

(** 1, 0 (timeout), -1; [Endless]: the call does not return. *)
Inductive result := Ret (code : Z) | Endless.
(** Lines 1358-1558.  Each round takes one method away, so that four are enough. *)
Fixpoint auth_loop (fuel : nat) (avail : meth -> bool) (p : meth -> Z) (rm : remote) (ra : ares) : result * list ev :=
  match fuel with
  | O => (Endless, [])
  | S fuel =>
    match choose avail p with
    | None => (Ret (-1), [])
    | Some m =>
      let avail' := fun x => avail x && negb (meth_eqb x m) in
      let step := match m with
                  | Password => match r_password rm with None => inl (Ret (-1), []) | Some x => inr (x, [EPassword x]) end
                  | Interactive => match kbd_loop (r_kbd rm) with None => inl (Endless, []) | Some xt => inr xt end
                  | PublicKey => inr (match r_keys rm with [] => (ra, []) | l => pk_loop l ra end)
                  end in
      match step with
      | inl (r, t) => (r, EMethod m :: t)
      | inr (x, t) =>
        match x with
        | AAgain => (Ret 0, EMethod m :: t)
        | AError | AInfo => (Ret (-1), EMethod m :: t)
        | ASuccess => (Ret 1, EMethod m :: t)
        | ADenied | APartial => let '(r, t') := auth_loop fuel avail' p rm x in (r, EMethod m :: t ++ t')
        end
      end
    end
  end.
Definition connect (p : meth -> Z) (rm : remote) : result * list ev :=
  match r_conn rm with
  | CAgain => (Ret 0, [])
  | CError => (Ret (-1), [])
  | COk =>
    let ok := fst (hostkey_check (r_mode rm) (r_host rm)) in
    if negb ok then (Ret (-1), [EHostkey false])
    else let '(r, t) :=
           match r_none rm with
           | AAgain => (Ret 0, [])
           | AError => (Ret (-1), [])
           | ASuccess => (Ret 1, [])
           | x => auth_loop 4 (fun m => r_offers rm m && (0 <=? p m)%Z) p rm x
           end in
         (r, EHostkey true :: ENone (r_none rm) :: t)
  end.
(** Lines 1170-1183; int16_t. *)
Definition set_pref (p : meth -> Z) (m : meth) (v : Z) : meth -> Z := fun x => if meth_eqb x m then (if (v <? 0)%Z then (-1)%Z else v) else p x.

(* ------------------------------------------------------------------ *)
(** ** Key pairs, lines 999-1156; memory does not run out, fewer than 65535 pairs *)

Record keypair := { pub : bytes; priv : bytes; crypt : bool }.
Inductive kres := KOk | KFail | KUndef.

(** fgets(line, 128): a line with its newline, or 127 characters of it. *)
Fixpoint line_of (n : nat) (s : bytes) : bytes * bytes :=
  match n, s with
  | S n, c :: r => if Ascii.eqb c "010"%char then ([c], r) else let '(l, t) := line_of n r in (c :: l, t)
  | _, _ => ([], s)
  end.
Definition fgets (s : bytes) : option (bytes * bytes) := match s with [] => None | _ => Some (line_of 127 s) end.
Definition lower (c : ascii) : ascii := let n := N_of_ascii c in if ((65 <=? n) && (n <=? 90))%N then ascii_of_N (n + 32) else c.
(** strcasestr(). *)
Fixpoint casestr (s needle : bytes) : bool :=
  prefixb needle (map lower s) || match s with [] => false | _ :: r => casestr r needle end.

(** [real]: realpath(); [file]: the content of a file that can be opened. *)
Section Pairs.
Variable real : bytes -> option bytes.
Variable file : bytes -> option bytes.
(** Lines 1041-1062: [None]: error. *)
Definition encrypted (content : bytes) : option bool :=
  match fgets content with
  | None => None
  | Some (_, r) => match fgets r with None => None | Some (l, _) => Some (casestr (cstr l) (bs "encrypted")) end
  end.
Definition add_pair (st : list keypair) (pu pr : bytes) : kres * list keypair :=
  if existsb (fun k => streq (pub k) pu && streq (priv k) pr) st then (KFail, st)
  else match real pu with
       | None => (KFail, st)
       | Some pu =>
         match real pr with
         | None => (KFail, st)
         | Some pr =>
           let st' := fun c => st ++ [{| pub := pu; priv := pr; crypt := c |}] in
           match file pr with
           | None => (KOk, st' false)
           | Some content => match encrypted content with None => (KFail, st' false) | Some c => (KOk, st' c) end
           end
         end
       end.
End Pairs.
(** Lines 1081-1105: the last pair takes the place of the removed one. *)
Definition del_pair (st : list keypair) (idx : Z) : kres * list keypair :=
  if (Z.of_nat (length st) <=? idx)%Z then (KFail, st)
  else if (idx <? 0)%Z then (KUndef, st)
  else let i := Z.to_nat idx in
       (KOk, match rev st with
             | [] => []
             | l :: before => if Nat.eqb i (length before) then rev before
                              else firstn i (rev before) ++ l :: skipn (S i) (rev before)
             end).
(** Lines 1137-1155. *)
Definition get_pair (st : list keypair) (idx : Z) : kres * option (bytes * bytes) :=
  if (Z.of_nat (length st) <=? idx)%Z then (KFail, None)
  else if (idx <? 0)%Z then (KUndef, None)
  else match nth_error st (Z.to_nat idx) with Some k => (KOk, Some (pub k, priv k)) | None => (KFail, None) end.

(* ------------------------------------------------------------------ *)
(** ** nc_connect_ssh_channel, lines 1873-1933: the lock shared by the sessions of a connection *)

(** A mutex held by this thread or free; what the steps give.  nc_session_free() of the new session (session.c 721-844) waits for the lock with a
    timeout, goes on without it, and gives it back only if it got it. *)
Record chan := { c_lock : bool; c_open : bool; c_ctx : bool; c_hello : bool; c_fill : bool }.
Definition free_new (held : bool) : bool := if held then true else false.
(** Result: is there a session, and is the lock held after the return. *)
Definition connect_channel (c : chan) : bool * bool :=
  if negb (c_lock c) then (false, free_new false)
  else if negb (c_open c) then (false, free_new true)
  else if negb (c_ctx c) then (false, free_new false)
  else if negb (c_hello c) then (false, free_new false)
  else if negb (c_fill c) then (false, free_new false)
  else (true, false).
