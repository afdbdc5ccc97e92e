(** Model of the buffer for entries of the system's users: src/session_server_ssh.c 482-509 (nc_server_ssh_getpwnam), 520-552 (nc_server_ssh_getspnam),
    560-614 (nc_server_ssh_get_pwd_hash).  The values without buffers: get_pwd_hash of SshKeys.v. *)
From Coq Require Import Ascii String Arith NArith ZArith Bool List.
From Verif Require Import Bytes CStr SshKeys.
Import ListNotations.

(** An entry of a database: not there (or an error other than ERANGE), or with the strings, which need so many bytes. *)
Inductive entry (V : Type) := Missing | Entry (need : N) (v : V).
Arguments Missing {V}. Arguments Entry {V}.

(** What the strings in the buffer are. *)
Inductive content := Garbage | HasPw (p : bytes) | HasSp (s : option bytes).

(** The variable buf: the number of its block, whether the block is still allocated; buf_size (size_t); what is in it; how many blocks were made. *)
Record st := { b_id : nat; b_live : bool; b_size : N; b_content : content; b_made : nat }.

(** Outcomes: a value; freed memory was used (or freed again); strings were read that something else has overwritten. *)
Inductive out (V : Type) := Ok (s : st) (v : V) | Freed | Overwritten | NoEnd.
Arguments Ok {V}. Arguments Freed {V}. Arguments Overwritten {V}. Arguments NoEnd {V}.

Section Sys.
(** Is there memory for a block of this size. *)
Variable mem : N -> bool.

(** realloc(): [None], the buffer is kept; a size of zero frees it (glibc) and returns NULL, too. *)
Definition enlarge (s : st) (n : N) : st * bool :=
  if (n =? 0)%N then ({| b_id := b_id s; b_live := false; b_size := n; b_content := Garbage; b_made := b_made s |}, false)
  else if mem n then ({| b_id := b_made s; b_live := true; b_size := n; b_content := b_content s; b_made := S (b_made s) |}, true)
  else ({| b_id := b_id s; b_live := b_live s; b_size := n; b_content := b_content s; b_made := b_made s |}, false).

(** Lines 482-509 and 520-552, the same loop: the value found and where its strings are.  getpwnam_r() and getspnam_r() may write to the buffer even if
    it is too small. *)
Fixpoint get {V} (keep : V -> content) (fuel : nat) (s : st) (e : entry V) : out (option (V * nat)) :=
  match fuel with
  | O => NoEnd
  | S fuel =>
      if negb (b_live s) then Freed
      else match e with
           | Missing => Ok {| b_id := b_id s; b_live := true; b_size := b_size s; b_content := Garbage; b_made := b_made s |} None
           | Entry need v =>
               if (need <=? b_size s)%N then
                 Ok {| b_id := b_id s; b_live := true; b_size := b_size s; b_content := keep v; b_made := b_made s |} (Some (v, b_id s))
               else
                 let s1 := {| b_id := b_id s; b_live := true; b_size := b_size s; b_content := Garbage; b_made := b_made s |} in
                 match enlarge s1 ((b_size s * 4) mod 2 ^ 64)%N with
                 | (s2, false) => Ok s2 None
                 | (s2, true) => get keep fuel s2 e
                 end
           end
  end.

(** free(buf) at the end. *)
Definition ends (s : st) (r : option bytes) : out (option bytes) :=
  if b_live s then Ok {| b_id := b_id s; b_live := false; b_size := b_size s; b_content := Garbage; b_made := b_made s |} r else Freed.

(** Strings of an entry are read: they are in the block [at_], which is that of buf and holds them still. *)
Definition reads {V} (s : st) (at_ : nat) (c : content) (k : out V) : out V :=
  if negb (b_live s) || negb (Nat.eqb at_ (b_id s)) then Freed
  else match b_content s, c with
       | HasPw _, HasPw _ | HasSp _, HasSp _ => k
       | _, _ => Overwritten
       end.

(** Lines 588-613: [dup], whether strdup() succeeds. *)
Definition checks (s : st) (at_ : nat) (c : content) (dup : bool) (h : option bytes) : out (option bytes) :=
  match h with
  | None => ends s None
  | Some h => reads s at_ c
      (if streq h (bs "*") || streq h (bs "!") then ends s None
       else if streq h (bs "*NP*") then ends s None
       else ends s (if dup then Some h else None))
  end.

(** Lines 560-614. *)
Definition pwd_hash (fuel : nat) (dup : bool) (today : Z) (pw : entry bytes) (sp : entry (option bytes * Z)) : out (option bytes) :=
  if negb (mem 256) then Ok {| b_id := 0; b_live := false; b_size := 256; b_content := Garbage; b_made := 0 |} None
  else
    let s0 := {| b_id := 0; b_live := true; b_size := 256; b_content := Garbage; b_made := 1 |} in
    match get HasPw fuel s0 pw with
    | Ok s None => ends s None
    | Ok s (Some (p, at_)) =>
        reads s at_ (HasPw p)
          (if streq p (bs "x") then
             match get (fun v => HasSp (fst v)) fuel s sp with
             | Ok s None => ends s None
             | Ok s (Some ((h, exp), at_)) =>
                 if ((-1 <? exp) && (exp <=? today))%Z then ends s None else checks s at_ (HasSp h) dup h
             | Freed => Freed | Overwritten => Overwritten | NoEnd => NoEnd
             end
           else checks s at_ (HasPw p) dup (Some p))
    | Freed => Freed | Overwritten => Overwritten | NoEnd => NoEnd
    end.
End Sys.
