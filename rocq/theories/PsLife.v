(** The life of a pollsession structure: sessions are added and removed (session_server.c 1225-1308, 2154-2195), polled (PsPoll.v), and changed by the
    application.  The array is a list of entries here; PsSess.v has the same functions on memory, with failing allocations. *)
From Coq Require Import NArith ZArith Bool List.
From Verif Require Import PsSess PsPoll.
Import ListNotations.

(** Lines 1225-1258 [nc_ps_add_session]: last_event_session is kept. *)
Definition l_add (p : pst) (s : sid) : pst := mkP (q_heap p) (q_ents p ++ [(s, PsNone)]) (q_last p).

(** Lines 1271-1282: the last entry takes the place of the one removed. *)
Fixpoint put {A} (l : list A) (i : nat) (x : A) : list A :=
  match l, i with [], _ => [] | _ :: r, O => x :: r | y :: r, S i' => y :: put r i' x end.
Definition l_del_at (p : pst) (i : nat) : pst :=
  match rev (q_ents p) with
  | [] => p
  | z :: r => mkP (q_heap p) (put (rev r) i z) 0
  end.
(** Lines 1269-1270: the first entry of the session. *)
Fixpoint l_find (l : list (sid * pstate)) (s : sid) (i : nat) : option nat :=
  match l with [] => None | (t, _) :: r => if N.eqb t s then Some i else l_find r s (S i) end.
(** Lines 1260-1308 [nc_ps_del_session]. *)
Definition l_del (p : pst) (s : sid) : pst := match l_find (q_ents p) s 0 with None => p | Some i => l_del_at p i end.

(** Lines 2154-2195 [nc_ps_clear]; the fuel is the number of entries. *)
Fixpoint l_clear_dead (p : pst) (i : nat) (n : nat) : pst :=
  match n with
  | O => p
  | S n' => match nth_error (q_ents p) i with
            | None => p
            | Some (s, _) => if status_eqb (s_status (q_heap p s)) StRunning then l_clear_dead p (S i) n' else l_clear_dead (l_del_at p i) i n'
            end
  end.
Definition l_clear (p : pst) (all : bool) : pst := if all then mkP (q_heap p) [] 0 else l_clear_dead p 0 (length (q_ents p)).

(** Lines 1188-1199 [nc_ps_new]; [h]: the sessions of the application. *)
Definition l_new (h : heap) : pst := mkP h [] 0.

Inductive lev := LAdd (s : sid) | LDel (s : sid) | LClear (all : bool) | LApp (e : eff) | LPoll (p : pst) (c : pcall) (ret : N) (rs : option sid) (out : list rmsg).

(** Everything that can happen to a structure, in any order, from its creation on. *)
Inductive life (o : opts) (h : heap) : list lev -> pst -> Prop :=
| life_new : life o h [] (l_new h)
| life_add l p s : life o h l p -> life o h (l ++ [LAdd s]) (l_add p s)
| life_del l p s : life o h l p -> life o h (l ++ [LDel s]) (l_del p s)
| life_clear l p a : life o h l p -> life o h (l ++ [LClear a]) (l_clear p a)
| life_app l p e : life o h l p -> life o h (l ++ [LApp e]) (mkP (apply_eff (q_heap p) e) (q_ents p) (q_last p))
| life_poll l p c p' ret rs out : life o h l p -> ps_poll o p c = Some (p', ret, rs, out) -> life o h (l ++ [LPoll p c ret rs out]) p'.
