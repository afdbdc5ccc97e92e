(** Model of the memory into which CRLs are downloaded: src/session.c 1569-1586 (nc_session_curl_cb), 1594-1617 (nc_session_curl_fetch), 1685-1706 (the
    loop of nc_session_tls_crl_from_cert_ext_fetch), src/io.c 1084-1095 (nc_realloc).  Lengths are not bounded (their sum has to be below 2^64). *)
From Coq Require Import Ascii NArith Bool List.
From Verif Require Import Bytes TlsConn.
Import ListNotations.

(** struct nc_curl_data: the block, of which bytes may not have been written, or NULL; and the size. *)
Record buf := { b_data : option (list (option ascii)); b_size : nat }.
Definition zero : buf := {| b_data := None; b_size := 0 |}.

(** realloc() of glibc: [mem] is whether there is memory.  A block resized to zero is freed and NULL is returned. *)
Inductive realloced := New (c : list (option ascii)) | NullKept | NullFreed.
Definition realloc (p : option (list (option ascii))) (n : nat) (mem : bool) : realloced :=
  match p with
  | None => if mem then New (repeat None n) else NullKept
  | Some c => match n with
              | 0 => NullFreed
              | _ => if mem then New (firstn n (c ++ repeat None n)) else NullKept
              end
  end.

(** io.c 1084-1095: [None] if a block is freed twice. *)
Definition nc_realloc (p : option (list (option ascii))) (n : nat) (mem : bool) : option (option (list (option ascii))) :=
  match realloc p n mem with
  | New c => Some (Some c)
  | NullKept => Some None
  | NullFreed => None
  end.

(** memcpy() of [d] to [at]. *)
Definition put (c : list (option ascii)) (at_ : nat) (d : bytes) : list (option ascii) := firstn at_ c ++ map Some d ++ skipn (at_ + length d) c.

(** Lines 1569-1586: the number returned; [None] for a block freed twice. *)
Definition curl_cb (b : buf) (d : bytes) (mem : bool) : option (buf * nat) :=
  match nc_realloc (b_data b) (b_size b + length d) mem with
  | None => None
  | Some None => Some ({| b_data := None; b_size := b_size b |}, 0)
  | Some (Some c) => Some ({| b_data := Some (put c (b_size b) d); b_size := b_size b + length d |}, length d)
  end.

(** curl_easy_perform(): the pieces given to the callback, with whether there is memory; the transfer ends if the callback does not return the number
    of bytes it was given.  [ok]: whether the transfer succeeds otherwise. *)
Fixpoint perform (b : buf) (l : list (bytes * bool)) (ok : bool) : option (buf * bool) :=
  match l with
  | [] => Some (b, ok)
  | (d, mem) :: l => match curl_cb b d mem with
                     | None => None
                     | Some (b, n) => if Nat.eqb n (length d) then perform b l ok else Some (b, false)
                     end
  end.

(** What the parser is given: the bytes, if all were written. *)
Fixpoint written (c : list (option ascii)) : option bytes :=
  match c with
  | [] => Some []
  | None :: _ => None
  | Some x :: c => match written c with Some l => Some (x :: l) | None => None end
  end.

(** The end: as in TlsConn.v; a block freed twice; bytes that were never written given to the parser. *)
Inductive fin := Ends (r : crl_result) | FreedTwice | Unwritten.

Section Parser.
(** What the parser takes (OpenSSL: DER or PEM). *)
Variable good : bytes -> bool.

(** Lines 1685-1706.  NULL is refused by the parsers of both libraries.  The data left at the end is not looked at; its bytes are told for comparison. *)
Fixpoint loop (l : list (list (bytes * bool) * bool)) (b : buf) (store : list bytes) (ret : bool) : fin :=
  match l with
  | [] => Ends (CrlRet ret (Some store) (match b_data b with None => [] | Some c => match written c with Some l => l | None => [] end end))
  | (ps, ok) :: l =>
      match perform b ps ok with
      | None => FreedTwice
      | Some (b, false) => loop l b store true
      | Some (b, true) =>
          match b_data b with
          | None => Ends (CrlRet true None [])
          | Some c => match written c with
                      | None => Unwritten
                      | Some x => if good x then loop l zero (store ++ [x]) false else Ends (CrlRet true None [])
                      end
          end
      end
  end.
End Parser.
