(** Asking the user at the terminal, and host keys in DNS: session_client_ssh.c 75-201 (terminals), 234-400
    (SSHFP records), 448-612 (host keys with DNSSEC), 614-791 (password, interactive answers, passphrase of a
    key).  Built with HAVE_TERMIOS and ENABLE_DNSSEC. *)
From Coq Require Import List Ascii NArith ZArith Bool.
From Verif Require Import Bytes ClientSsh.
Import ListNotations.
Local Open Scope list_scope.

(* ------------------------------------------------------------------ *)
(** ** Terminals *)

(** struct termios: the flag ECHO and the rest. *)
Record settings := { echo : bool; others : nat }.

(** Paths may lead to the same terminal; a terminal is a number.  What fopen(), ttyname_r(), tcgetattr(),
    tcsetattr(), fprintf() and malloc() answer: [e_in], [e_out]: /dev/tty for reading and writing; [e_stdin],
    [e_stdout]: the terminal of the standard input and output, if it has a name ([ttyname_r]) and if it can
    be opened; [e_off t], [e_on t]: tcsetattr() to hide what is typed, and to restore.  [e_print n]: the
    n-th fprintf(). *)
Record env := {
  e_in : option nat; e_stdin_name : bool; e_stdin : option nat;
  e_out : option nat; e_stdout_name : bool; e_stdout : option nat;
  e_get : nat -> bool; e_off : nat -> bool; e_on : nat -> bool;
  e_print : nat -> bool;
  e_malloc : bool; e_realloc : nat -> bool;
  e_typed : bytes;
}.

(** A FILE: its number and its terminal. *)
Record file := { f_no : nat; f_term : nat }.

(** The settings of the terminals, the files opened so far and those open, buffers in use; [w_wild]: settings were
    written that were never read. *)
Record world := { w_set : nat -> settings; w_made : nat; w_open : list nat; w_bufs : Z; w_wild : bool }.

Definition upd {A} (f : nat -> A) (k : nat) (v : A) : nat -> A := fun n => if Nat.eqb n k then v else f n.

Definition fopen (t : option nat) (w : world) : world * option file :=
  match t with
  | None => (w, None)
  | Some t => ({| w_set := w_set w; w_made := S (w_made w); w_open := w_made w :: w_open w; w_bufs := w_bufs w;
                  w_wild := w_wild w |}, Some {| f_no := w_made w; f_term := t |})
  end.

Definition fclose (f : file) (w : world) : world :=
  {| w_set := w_set w; w_made := w_made w; w_open := remove Nat.eq_dec (f_no f) (w_open w); w_bufs := w_bufs w;
     w_wild := w_wild w |}.

Definition tcsetattr (f : file) (s : settings) (w : world) : world :=
  {| w_set := upd (w_set w) (f_term f) s; w_made := w_made w; w_open := w_open w; w_bufs := w_bufs w;
     w_wild := w_wild w |}.

Definition wild (w : world) : world :=
  {| w_set := w_set w; w_made := w_made w; w_open := w_open w; w_bufs := w_bufs w; w_wild := true |}.

Definition bufs (n : Z) (w : world) : world :=
  {| w_set := w_set w; w_made := w_made w; w_open := w_open w; w_bufs := (w_bufs w + n)%Z; w_wild := w_wild w |}.

(** session_client_ssh.c 75-107 [nc_open_tty_noecho]; [old]: *oldterm, [None] if it was not set yet. *)
Definition nc_open_tty_noecho (e : env) (t : option nat) (old : option settings) (w : world)
  : world * option settings * option file :=
  match fopen t w with
  | (w1, None) => (w1, old, None)
  | (w1, Some f) =>
      if negb (e_get e (f_term f)) then (fclose f w1, old, None)
      else let s := w_set w1 (f_term f) in
           if negb (e_off e (f_term f)) then (fclose f w1, Some s, None)
           else (tcsetattr f {| echo := false; others := others s |} w1, Some s, Some f)
  end.

(** session_client_ssh.c 117-150 [nc_open_in]. *)
Definition nc_open_in (e : env) (ech : bool) (old : option settings) (w : world) : world * option settings * option file :=
  let try t old w :=
    if negb ech then nc_open_tty_noecho e t old w else let (w1, f) := fopen t w in (w1, old, f) in
  match try (e_in e) old w with
  | (w1, old1, Some f) => (w1, old1, Some f)
  | (w1, old1, None) => if negb (e_stdin_name e) then (w1, old1, None) else try (e_stdin e) old1 w1
  end.

(** session_client_ssh.c 158-181 [nc_open_out]. *)
Definition nc_open_out (e : env) (w : world) : world * option file :=
  match fopen (e_out e) w with
  | (w1, Some f) => (w1, Some f)
  | (w1, None) => if negb (e_stdout_name e) then (w1, None) else fopen (e_stdout e) w1
  end.

(** session_client_ssh.c 192-201 [nc_close_inout]. *)
Definition nc_close_inout (e : env) (f : option file) (ech : bool) (old : option settings) (w : world) : world :=
  match f with
  | None => w
  | Some f =>
      fclose f
        (if negb ech then
           match old with
           | Some s => if e_on e (f_term f) then tcsetattr f s w else w
           | None => wild w
           end
         else w)
  end.

(** The loops at 640-648, 705-713 and 764-772.  [limit]: what the type of buflen cannot hold, 2^31 for int and
    2^32 for uint32_t; a length that reaches it is undefined (int) or becomes 0, which makes nc_realloc()
    free the buffer twice.  A write outside of the buffer is undefined. *)
Inductive filled := FLine (buf : bytes) | FNoMem | FUndefined.

Fixpoint fill (e : env) (limit : Z) (typed : bytes) (buf : bytes) (buflen : Z) (grown : nat) : filled :=
  let len := Z.of_nat (length buf) in
  match typed with
  | [] => if (len <? buflen)%Z then FLine buf else FUndefined
  | c :: typed =>
      if Ascii.eqb c "010"%char then (if (len <? buflen)%Z then FLine buf else FUndefined)
      else if (len >=? buflen - 1)%Z then
        if (buflen * 2 >=? limit)%Z then FUndefined
        else if negb (e_realloc e grown) then FNoMem
        else if (len <? buflen * 2)%Z then fill e limit typed (buf ++ [c]) (buflen * 2) (S grown) else FUndefined
      else if (len <? buflen)%Z then fill e limit typed (buf ++ [c]) buflen grown else FUndefined
  end.

(** What a call gave: a line (its buffer is the caller's), NULL, or undefined behaviour; [r_shown]: whether the terminal
    showed what was typed, if anything was read. *)
Inductive answer := ALine (l : bytes) | ANull | AUndefined.
Record result := { r_answer : answer; r_world : world; r_shown : option bool }.

(** The body of the three functions; [ech]: show what is typed; [prints]: how many fprintf() before reading. *)
Definition ask_user (e : env) (ech : bool) (prints : nat) (buflen limit : Z) (w : world) : result :=
  if negb (e_malloc e) then {| r_answer := ANull; r_world := w; r_shown := None |}
  else
    let w0 := bufs 1 w in
    let fail i o old w :=
      {| r_answer := ANull; r_world := bufs (-1) (nc_close_inout e o true None (nc_close_inout e i ech old w)); r_shown := None |} in
    match nc_open_in e ech None w0 with
    | (w1, old, None) => fail None None old w1
    | (w1, old, Some i) =>
        match nc_open_out e w1 with
        | (w2, None) => fail (Some i) None old w2
        | (w2, Some o) =>
            if negb (forallb (e_print e) (seq 0 prints)) then fail (Some i) (Some o) old w2
            else
              let shown := Some (echo (w_set w2 (f_term i))) in
              let close w := nc_close_inout e (Some o) true None (nc_close_inout e (Some i) ech old w) in
              match fill e limit (e_typed e) [] buflen 0 with
              | FLine l => {| r_answer := ALine l; r_world := close w2; r_shown := shown |}
              | FNoMem => {| r_answer := ANull; r_world := bufs (-1) (close w2); r_shown := shown |}
              | FUndefined => {| r_answer := AUndefined; r_world := w2; r_shown := shown |}
              end
        end
    end.

(** session_client_ssh.c 614-668 [sshauth_password]. *)
Definition sshauth_password (e : env) (w : world) : result := ask_user e false 1 1024 (2 ^ 31) w.
(** session_client_ssh.c 670-736 [sshauth_interactive]; [name], [instruction]: given. *)
Definition sshauth_interactive (e : env) (name instruction ech : bool) (w : world) : result :=
  ask_user e ech (Nat.b2n name + Nat.b2n instruction + 1) 64 (2 ^ 32) w.
(** session_client_ssh.c 738-791 [sshauth_privkey_passphrase]. *)
Definition sshauth_privkey_passphrase (e : env) (w : world) : result := ask_user e false 1 1024 (2 ^ 31) w.

(* ------------------------------------------------------------------ *)
(** ** SSHFP records *)

(** A record of the answer: its type and its data. *)
Record rr := { rr_type : Z; rr_data : list Z }.

(** The answer of the validating resolver: [d_trusted]: a length that is not negative and val_istrusted();
    [d_parse]: ns_initparse(); [d_question]: the first record of the question, if it can be read; [d_records]:
    those of the answer up to the first that cannot be read. *)
Record dns := {
  d_trusted : bool; d_parse : bool; d_rcode : Z; d_ad : bool;
  d_question : option (bytes * Z * Z);
  d_records : list rr;
}.

(** [CRet]: the value returned; [COver]: data behind the end of a record are read. *)
Inductive checked := CRet (n : nat) | COver.

(** 302-308: twenty octets are compared. *)
Fixpoint same20 (n : nat) (rdata hash : list Z) : option bool :=
  match n with
  | O => Some true
  | S n => match rdata, hash with
           | a :: rdata, b :: hash => if Z.eqb a b then same20 n rdata hash else Some false
           | _, _ => None
           end
  end.

(** 285-318; [found]: what to return for a match. *)
Fixpoint search (found : nat) (type alg : Z) (hash : list Z) (l : list rr) : checked :=
  match l with
  | [] => CRet 2
  | r :: l =>
      if negb (Z.eqb (rr_type r) 44) then search found type alg hash l
      else match rr_data r with
           | [] => COver
           | t :: d =>
               if negb (Z.eqb t type) then search found type alg hash l
               else match d with
                    | [] => COver
                    | a :: d =>
                        if negb (Z.eqb a alg) then search found type alg hash l
                        else match same20 20 d hash with
                             | None => COver
                             | Some true => CRet found
                             | Some false => CRet 2
                             end
                    end
           end
  end.

(** session_client_ssh.c 234-322 [sshauth_hostkey_hash_dnssec_check]. *)
Definition sshauth_hostkey_hash_dnssec_check (d : dns) (hostname : bytes) (hash : list Z) (type alg : Z) : checked :=
  if negb (d_trusted d) then CRet 2
  else if negb (d_parse d) then CRet 2
  else if negb (Z.eqb (d_rcode d) 0) then CRet 2
  else match d_question d with
       | None => CRet 2
       | Some (n, t, c) =>
           if negb (CStr.streq hostname n && Z.eqb t 44 && Z.eqb c 1) then CRet 2
           else search (if d_ad d then 0 else 1) type alg hash (d_records d)
       end.

(** enum ssh_keytypes_e; [KOther]: Ed25519 and those that came later. *)
Inductive keytype := KUnknown | KDss | KRsa | KRsa1 | KEcdsa | KOther.

(** session_client_ssh.c 373-400 [nc_client_ssh_do_dnssec_sshfp_check]. *)
Definition nc_client_ssh_do_dnssec_sshfp_check (d : dns) (k : keytype) (hostname : bytes) (hash : list Z) : checked :=
  match k with
  | KUnknown | KRsa1 => CRet 1
  | KDss => sshauth_hostkey_hash_dnssec_check d hostname hash 2 1
  | KRsa => sshauth_hostkey_hash_dnssec_check d hostname hash 1 1
  | KEcdsa => sshauth_hostkey_hash_dnssec_check d hostname hash 3 1
  | KOther => CRet 1
  end.

(** What the user is told of DNS before being asked (545-555). *)
Inductive told := TNoMatch | TMatch.

(** session_client_ssh.c 448-612 [nc_client_ssh_auth_hostkey_check] with DNSSEC: the check of ClientSsh.v, before
    which an unknown key is looked up.  Accepted, entry added, what the user was told; [None]: undefined. *)
Definition hostkey_check_dnssec (m : mode) (h : host) (d : dns) (k : keytype) (hostname : bytes) (hash : list Z)
  : option (bool * bool * option told) :=
  let plain t := Some (hostkey_check m h, t) in
  match m with
  | Skip => plain None
  | _ =>
      if negb (h_key h) then plain None
      else match h_known h with
           | KnownOther | KnownNotFound | KnownUnknown =>
               match nc_client_ssh_do_dnssec_sshfp_check d k hostname hash with
               | COver => None
               | CRet 0 => Some ((true, h_update h), None)
               | CRet n =>
                   match m with
                   | Ask => if h_tty h
                            then plain (match n with 2 => Some TNoMatch | 1 => Some TMatch | _ => None end)
                            else plain None
                   | _ => plain None
                   end
               end
           | _ => plain None
           end
  end.
