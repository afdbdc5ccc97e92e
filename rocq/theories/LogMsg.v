(** Messages the library prints: src/log.c 36-58, 72-130, src/log_p.h 45-49, src/log.h 33-39. *)
From Coq Require Import String Ascii ZArith Bool List.
From Verif Require Import Bytes.
Import ListNotations.
Local Open Scope list_scope.
Local Open Scope Z_scope.

Definition INT_MAX : Z := 2147483647.

(* ------------------------------------------------------------------ *)
(** ** prv_vprintf, log.c 72-114 *)

(** What the format and the arguments give: [Text t], text [t], or an error of vsnprintf().  A text has no terminating byte within (no
    [%c] of the library prints one). *)
Inductive fmt := Text (t : bytes) | Bad.

(** vsnprintf(buf, limit, ...) where the block [buf] has [cap] bytes: [Wrote b r], [b] is the C string in the block and [r] is returned; [Neg]:
    -1 is returned, also for a text longer than an [int] can say (EOVERFLOW); [Over]: written behind the block. *)
Inductive vsn := Wrote (b : bytes) (r : Z) | Neg | Over.
Definition vsnprintf (cap limit : Z) (f : fmt) : vsn :=
  match f with
  | Bad => Neg
  | Text t =>
    let len := Z.of_nat (length t) in
    if len >? INT_MAX then Neg
    else let n := Z.max 0 (Z.min len (limit - 1)) in
      if (limit <=? 0) then Wrote [] len
      else if n + 1 >? cap then Over else Wrote (firstn (Z.to_nat n) t) len
  end.

(** Where a message ends: the callback of the application is called with the session, the level and the text, or a line is printed on stderr. *)
Inductive out := Callback (sess : option N) (level : Z) (msg : bytes) | Stderr (line : bytes).

(** The memory: malloc(), realloc() and free() of the block. *)
Inductive mem := Malloc (n : Z) | Realloc (n : Z) | Free.

(** What one call did; [Undef]: undefined behaviour, that is a write behind the block, an [int] that overflows, a [va_list] read again after it was
    used, or [verb] read behind its end.  The missing va_end() of [args2] is not modelled. *)
Inductive res := Done (prints : list out) (m : list mem) | Undef.

(** Lines 48-58: [verb[level].label]. *)
Definition label (level : Z) : option bytes :=
  match level with 0 => Some (bs "[ERR]") | 1 => Some (bs "[WRN]") | 2 => Some (bs "[INF]") | 3 => Some (bs "[DBG]") | 4 => Some (bs "[DBL]") | _ => None end.

(** Lines 103-109; [sess]: the session given, by its id; [dec]: [PRIu32]. *)
Definition print (clb : bool) (sess : option N) (level : Z) (msg : bytes) : option (list out) :=
  if clb then Some [Callback sess level msg]
  else match label level with
       | None => None
       | Some l =>
         let rest := l ++ bs ": " ++ msg ++ [ascii_of_nat 10] in
         match sess with
         | Some id => if (id =? 0)%N then Some [Stderr rest] else Some [Stderr (bs "Session " ++ dec id ++ bs " " ++ rest)]
         | None => Some [Stderr rest]
         end
       end.

(** The two lists of arguments, lines 83, 85, 98: one used by vsnprintf() must not be read again. *)
Inductive va := Args | Args2.
Definition fresh (used : list va) (a : va) : bool :=
  negb (existsb (fun u => match u, a with Args, Args | Args2, Args2 => true | _, _ => false end) used).

Definition INIT_SIZE : Z := 256.
(** [m1], [m2]: malloc() and realloc() give memory.  [f]: what the format and the arguments give. *)
Definition prv_vprintf (m1 m2 : bool) (clb : bool) (sess : option N) (level : Z) (f : fmt) : res :=
  if negb m1 then Done [] []
  else
    let finish msg m := match print clb sess level msg with Some o => Done o (m ++ [Free]) | None => Undef end in
    let m := [Malloc INIT_SIZE] in
    let used := [] in
    if negb (fresh used Args) then Undef
    else match vsnprintf INIT_SIZE (INIT_SIZE - 1) f with
         | Over => Undef
         | Neg => Done [] (m ++ [Free])
         | Wrote b r =>
           let used := [Args] in
           if r >=? INIT_SIZE - 1 then
             if r + 1 >? INT_MAX then Undef
             else
               let req := r + 1 in
               if negb m2 then Done [] (m ++ [Free])
               else
                 let m := m ++ [Realloc req] in
                 if negb (fresh used Args2) then Undef
                 else match vsnprintf req req f with
                      | Over => Undef
                      | Neg => Done [] (m ++ [Free])
                      | Wrote b r => finish b m
                      end
           else finish b m
         end.

(* ------------------------------------------------------------------ *)
(** ** The macros, log_p.h 45-49, and the settings, log.c 36-45 and 126-130 *)

(** [verbose_level] and whether [print_clb] is set; at the start 0 and NULL. *)
Record settings := { verbose : Z; has_clb : bool }.
Definition initial : settings := {| verbose := 0; has_clb := false |}.

Inductive msg_level := LErr | LWrn | LVrb | LDbg | LDbl.
Definition code (l : msg_level) : Z := match l with LErr => 0 | LWrn => 1 | LVrb => 2 | LDbg => 3 | LDbl => 4 end.

(** [Verbosity v]: nc_verbosity(v), log.c 40-45 (the level of libyang is not modelled); [SetClb b]: nc_set_print_clb_session() of a callback or of
    NULL; [Msg ...]: one of the macros, with what the memory and the formatting give. *)
Inductive event := Verbosity (v : Z) | SetClb (b : bool) | Msg (l : msg_level) (sess : option N) (f : fmt) (m1 m2 : bool).

Definition step (s : settings) (e : event) : settings * res :=
  match e with
  | Verbosity v => ({| verbose := v; has_clb := has_clb s |}, Done [] [])
  | SetClb b => ({| verbose := verbose s; has_clb := b |}, Done [] [])
  | Msg l sess f m1 m2 =>
    (s, match l with
        | LErr => prv_vprintf m1 m2 (has_clb s) sess (code l) f
        | _ => if verbose s >=? code l then prv_vprintf m1 m2 (has_clb s) sess (code l) f else Done [] []
        end)
  end.

(** A history of settings and messages. *)
Fixpoint run (s : settings) (l : list event) : res :=
  match l with
  | [] => Done [] []
  | e :: l =>
    match step s e with
    | (_, Undef) => Undef
    | (s', Done o m) => match run s' l with Undef => Undef | Done o' m' => Done (o ++ o') (m ++ m') end
    end
  end.
