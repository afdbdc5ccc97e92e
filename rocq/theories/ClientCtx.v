(** The contexts of client threads: session_client.c 66-226.  Threads interleave; one event is a call or one access to a
    reference counter, which is an ordinary unsigned int. *)
From Coq Require Import List Arith Bool NArith.
Import ListNotations.
Local Open Scope N_scope.

(** The settings in a context: keepalives (enabled, idle time, probes, interval; session_p.h 292-297), the preferences of the
    SSH methods and the mode of known hosts (NC_SSH_KNOWNHOSTS_ASK is 0), and all that an application sets, as a number. *)
Record settings := mkV { v_ka : bool * N * N * N; v_pref : list N; v_mode : N; v_app : N }.
(** 69-96 [context_main]. *)
Definition main_default : settings := mkV (true, 1, 10, 5) [1; 2; 3] 0 0.
(** 167-191: calloc(), then what is set (with HAVE_TERMIOS). *)
Definition thread_default : settings := mkV (false, 0, 0, 0) [1; 2; 3] 0 0.

(** A context: its counter, whether it is not freed yet, its settings.  The context 0 is [context_main], a static variable. *)
Record ctx := mkC { c_ref : N; c_alive : bool; c_val : settings }.

(** Where a thread is in nc_client_set_thread_context() (its argument is [Some n]) or in the destructor of its context when it
    ends ([None]): about to read the counter of the old one (103), to write it, then the same for the new one (224). *)
Inductive pc := Idle | Dec (c : nat) (n : option nat) | Dec2 (c : nat) (r : N) (n : option nat) | Inc (n : nat) | Inc2 (n : nat) (r : N).
(** [h_cur] is the value of the key of the thread (while the thread is changing its context, [None] from when the old one was left). *)
Record thr := mkH { h_cur : option nat; h_pc : pc; h_ended : bool }.
(** The thread 0 is the main thread.  [bad]: a freed context was used. *)
Record st := mkS { ctxs : list ctx; thrs : list thr; bad : bool }.
Definition init : st := mkS [mkC 0 true main_default] [mkH None Idle false] false.

Definition upd {A} (l : list A) (i : nat) (x : A) : list A := firstn i l ++ x :: skipn (S i) l.
Definition set_thr (s : st) (t : nat) (h : thr) : st := mkS (ctxs s) (upd (thrs s) t h) (bad s).
Definition set_ctx (s : st) (c : nat) (x : ctx) : st := mkS (upd (ctxs s) c x) (thrs s) (bad s).
Definition ub (s : st) : st := mkS (ctxs s) (thrs s) true.

(** 150-195 [nc_client_context_location]: the context of a thread, made if there is none. *)
Definition location (s : st) (t : nat) (h : thr) : st * nat :=
  match h_cur h with
  | Some c => (s, c)
  | None =>
      if Nat.eqb t 0 then (set_thr s t (mkH (Some 0%nat) (h_pc h) (h_ended h)), 0%nat)
      else (mkS (ctxs s ++ [mkC 1 true thread_default]) (upd (thrs s) t (mkH (Some (length (ctxs s))) (h_pc h) (h_ended h))) (bad s), length (ctxs s))
  end.

Definition M32 : N := 4294967296.
(** Events: a thread is created; a thread asks for its context, sets the context [c], changes a setting (any nc_client_*set* function:
    [v_app]), ends (pthread destructor), or makes a step in what it is doing. *)
Inductive event := ENew | ELoc (t : nat) | ESet (t c : nat) | EWrite (t : nat) (v : N) | EEnd (t : nat) | EStep (t : nat).

Definition call (s : st) (t : nat) (f : thr -> st) : st :=
  match nth_error (thrs s) t with Some h => match h_pc h with Idle => if h_ended h then s else f h | _ => s end | None => s end.
(** The part of [nc_client_context_free] (98-137) and [nc_client_set_thread_context] (206-226) up to the next access. *)
Definition go (s : st) (t : nat) (h : thr) : st :=
  match h_pc h with
  | Idle => s
  | Dec c n =>
      match nth_error (ctxs s) c with
      | Some x => if c_alive x then set_thr s t (mkH (h_cur h) (Dec2 c (c_ref x) n) (h_ended h)) else ub s
      | None => ub s
      end
  | Dec2 c r n =>
      match nth_error (ctxs s) c with
      | Some x =>
          if c_alive x then
            let r1 := (r + M32 - 1) mod M32 in
            let x1 := mkC r1 (if r1 =? 0 then Nat.eqb c 0 else true) (c_val x) in
            set_thr (set_ctx s c x1) t
              (match n with Some c2 => mkH None (Inc c2) (h_ended h) | None => mkH None Idle true end)
          else ub s
      | None => ub s
      end
  | Inc n =>
      match nth_error (ctxs s) n with
      | Some x => if c_alive x then set_thr s t (mkH (h_cur h) (Inc2 n (c_ref x)) (h_ended h)) else ub s
      | None => ub s
      end
  | Inc2 n r =>
      match nth_error (ctxs s) n with
      | Some x => if c_alive x then set_thr (set_ctx s n (mkC ((r + 1) mod M32) true (c_val x))) t (mkH (Some n) Idle (h_ended h)) else ub s
      | None => ub s
      end
  end.
Definition step (s : st) (e : event) : st :=
  match e with
  | ENew => mkS (ctxs s) (thrs s ++ [mkH None Idle false]) (bad s)
  | ELoc t => call s t (fun h => fst (location s t h))
  | ESet t n =>
      call s t (fun h =>
        let '(s1, c) := location s t h in
        if Nat.eqb c n then s1 else set_thr s1 t (mkH (Some c) (Dec c (Some n)) false))
  | EWrite t v =>
      call s t (fun h =>
        let '(s1, c) := location s t h in
        match nth_error (ctxs s1) c with
        | Some x => if c_alive x then set_ctx s1 c (mkC (c_ref x) true (mkV (v_ka (c_val x)) (v_pref (c_val x)) (v_mode (c_val x)) v)) else ub s1
        | None => ub s1
        end)
  | EEnd t => call s t (fun h => match h_cur h with None => set_thr s t (mkH None Idle true) | Some c => set_thr s t (mkH (Some c) (Dec c None) false) end)
  | EStep t => match nth_error (thrs s) t with Some h => go s t h | None => s end
  end.
Definition run (s : st) (tr : list event) : st := fold_left step tr s.

(** The settings the functions of the library use in a thread: those of its context, after nc_client_context_location(). *)
Definition seen (s : st) (t : nat) : option settings :=
  match nth_error (thrs s) t with
  | Some h => match h_cur h with
              | Some c => option_map c_val (nth_error (ctxs s) c)
              | None => Some (if Nat.eqb t 0 then match nth_error (ctxs s) 0 with Some x => c_val x | None => main_default end else thread_default)
              end
  | None => None
  end.
