(** Endpoint references: src/server_config.c 668-717 (removal), 2670-2803 (check), 2804-2880 (setting), src/session_server.c 116-129 (search).

    Of an endpoint: the number of the block with its name, the name, the transport, the configured reference and the pointer in the transport's options that
    authentication follows (session_server_ssh.c 1468, session_server_tls.c 498, 566, 834) as the number of the block pointed to.
    Endpoints of Call Home are read by the check only; their part in the removal is not modelled. *)
From Coq Require Import String Bool List Arith.
From Verif Require Import Endpts.
Import ListNotations.

Record rep := mkR { r_id : nat; r_name : string; r_ti : ti; r_ref : option string; r_ptr : option nat }.

(** session_server.c 116-129 [nc_server_get_referenced_endpt]: position and endpoint. *)
Fixpoint referenced (l : list rep) (n : string) (i : nat) : option (nat * rep) :=
  match l with
  | [] => None
  | e :: l' => if String.eqb n (r_name e) then Some (i, e) else referenced l' n (S i)
  end.

(** 2670-2691 [nc_server_config_check_endpt_reference_cycle], with a bound on the depth of the recursion; the C function has none ([None]: it is exceeded). *)
Fixpoint cycle (fuel : nat) (l : list rep) (original next : rep) : option bool :=
  match fuel with
  | O => None
  | S f =>
      match r_ref next with
      | None => Some false
      | Some r =>
          if String.eqb (r_name original) r then Some true
          else match referenced l r 0 with
               | None => Some true
               | Some (_, n) => cycle f l original n
               end
      end
  end.

Definition same_ti (a b : ti) : bool := match a, b with TNone, TNone | TSsh, TSsh | TTls, TTls | TUnix, TUnix => true | _, _ => false end.
Definition tls_or_ssh (t : ti) : bool := match t with TSsh | TTls => true | _ => false end.

Inductive verdict := Good (l : list rep) | Bad (l : list rep) | Diverges.

(** 2703-2742: the listening endpoints from position [i] on; [l] is the whole array. *)
Fixpoint check_loop (fuel : nat) (k i : nat) (l : list rep) : verdict :=
  match k with
  | O => Good l
  | S k' =>
      match nth_error l i with
      | None => Good l
      | Some e =>
          match r_ref e with
          | None => check_loop fuel k' (S i) l
          | Some r =>
              match referenced l r 0 with
              | None => Bad l
              | Some (j, e') =>
                  if Nat.eqb j i then Bad l
                  else if negb (same_ti (r_ti e) (r_ti e')) then Bad l
                  else if negb (tls_or_ssh (r_ti e')) then Bad l
                  else match cycle fuel l e e' with
                       | None => Diverges
                       | Some true => Bad l
                       | Some false => check_loop fuel k' (S i) (upd l i (mkR (r_id e) (r_name e) (r_ti e) (r_ref e) (Some (r_id e'))))
                       end
              end
          end
      end
  end.

(** 2744-2790: one endpoint of Call Home with transport [t] and reference [r]; [None]: no answer. *)
Definition check_ch (fuel : nat) (l : list rep) (t : ti) (r : string) : option bool :=
  match referenced l r 0 with
  | None => Some true
  | Some (_, e') =>
      if negb (same_ti t (r_ti e')) then Some true
      else if negb (tls_or_ssh (r_ti e')) then Some true
      else cycle fuel l e' e'
  end.

(* ------------------------------------------------------------------ *)
(** ** Changes of the configuration *)

Record rst := mkRs { rs_l : list rep; rs_next : nat }.

Inductive rop :=
| RCreate (n : string) (t : ti)
| RSet (n r : string)         (* 2857-2871 *)
| RUnset (n : string)         (* 2828-2854 *)
| RDel (n : string)           (* 668-740, 852-871 *)
| RCheck.                     (* the end of applying a configuration *)

Definition rset (l : list rep) (n : string) (f : rep -> rep) : list rep :=
  match referenced l n 0 with Some (i, e) => upd l i (f e) | None => l end.

(** 671-690 *)
Definition unref (n : string) (e : rep) : rep :=
  match r_ref e with Some r => if String.eqb r n then mkR (r_id e) (r_name e) (r_ti e) None None else e | None => e end.

Definition rstep (fuel : nat) (s : rst) (o : rop) : option rst :=
  match o with
  | RCreate n t => Some (mkRs (rs_l s ++ [mkR (rs_next s) n t None None]) (S (rs_next s)))
  | RSet n r => Some (mkRs (rset (rs_l s) n (fun e => mkR (r_id e) (r_name e) (r_ti e) (Some r) (r_ptr e))) (rs_next s))
  | RUnset n => Some (mkRs (rset (rs_l s) n (fun e => mkR (r_id e) (r_name e) (r_ti e) None None)) (rs_next s))
  | RDel n =>
      match referenced (rs_l s) n 0 with
      | None => Some s
      | Some (i, _) =>
          let l := map (unref n) (rs_l s) in
          let c := (length l - 1)%nat in
          Some (mkRs (firstn c (match nth_error l c with Some z => upd l i z | None => l end)) (rs_next s))
      end
  | RCheck => match check_loop fuel (length (rs_l s)) 0 (rs_l s) with Good l | Bad l => Some (mkRs l (rs_next s)) | Diverges => None end
  end.

Fixpoint rrun (fuel : nat) (s : rst) (os : list rop) : option rst :=
  match os with
  | [] => Some s
  | o :: os' => match rstep fuel s o with Some s' => rrun fuel s' os' | None => None end
  end.
