(** Model of the listening endpoints: src/session_server.c 872-921, 2197-2258, 2349-2483 and 526-663, src/server_config.c
    148-165, 671-740, 852-871, 979-1011, 1081-1160, 1360-1440. *)
From Coq Require Import String Bool Lia List Arith ZArith.
Import ListNotations.
Local Open Scope string_scope.

(* ------------------------------------------------------------------ *)
(** ** State *)

(** session_p.h: NC_TRANSPORT_IMPL, the values an endpoint has. *)
Inductive ti := TNone | TSsh | TTls | TUnix.

(** session_p.h 440-460 [struct nc_endpt].  What it owns (the name and the options, and the address of its bind) is one heap block
    with the number [e_id]; the name of the referenced endpoint is another. *)
Record endpt := mkEp { e_id : nat; e_name : string; e_ti : ti; e_ref : option (nat * string) }.

(** session_p.h 428-435 [struct nc_bind].  A socket has a number and (for the statements only) the number of the endpoint for which
    it was opened. *)
Record bind := mkB { b_addr : option string; b_port : N; b_sock : option (nat * nat); b_pollin : bool }.

(** server_opts.endpts, .binds, .endpt_count; the freed blocks, the closed sockets, and the numbers given so far.  The arrays keep
    their length when the count goes down, as realloc() is only called for growing; [] is NULL. *)
Record st := mkS { s_endpts : list endpt; s_binds : list bind; s_count : nat; s_freed : list nat; s_closed : list nat; s_next : nat }.

Definition st0 := mkS [] [] 0 [] [] 0.

(** A function ends with a return value, frees memory that is freed, uses memory beyond an array, or fails an assert(). *)
Inductive res := Ok (s : st) (r : nat) | DoubleFree | OutOfBounds | Abort.

Definition is_freed (s : st) (n : nat) : bool := existsb (Nat.eqb n) (s_freed s).

(** free() *)
Definition free (s : st) (n : nat) : option st :=
  if is_freed s n then None else Some (mkS (s_endpts s) (s_binds s) (s_count s) (n :: s_freed s) (s_closed s) (s_next s)).

(** free(endpt->referenced_endpt_name), of NULL too *)
Definition free_ref (s : st) (e : endpt) : option st := match e_ref e with Some (rid, _) => free s rid | None => Some s end.

Fixpoint upd {A} (l : list A) (i : nat) (x : A) : list A :=
  match l, i with
  | [], _ => []
  | _ :: l', O => x :: l'
  | y :: l', S i' => y :: upd l' i' x
  end.

Definition set_endpt (s : st) i e := mkS (upd (s_endpts s) i e) (s_binds s) (s_count s) (s_freed s) (s_closed s) (s_next s).
Definition set_bind (s : st) i b := mkS (s_endpts s) (upd (s_binds s) i b) (s_count s) (s_freed s) (s_closed s) (s_next s).
Definition set_next (s : st) n := mkS (s_endpts s) (s_binds s) (s_count s) (s_freed s) (s_closed s) n.
Definition close (s : st) (b : bind) : st :=
  match b_sock b with
  | Some (fd, _) => mkS (s_endpts s) (s_binds s) (s_count s) (s_freed s) (fd :: s_closed s) (s_next s)
  | None => s
  end.

(** server_config.c 148-165 [nc_server_config_get_endpt], session_server.c 2359 and 2461: the first of the endpoints with the name. *)
Fixpoint find_name (l : list endpt) (n : string) (i : nat) : option nat :=
  match l with
  | [] => None
  | e :: l' => if String.eqb (e_name e) n then Some i else find_name l' n (S i)
  end.
Definition get_endpt (s : st) (n : string) : option nat := find_name (firstn (s_count s) (s_endpts s)) n 0.

(* ------------------------------------------------------------------ *)
(** ** Additions *)

(** server_config.c 1081-1112 [nc_server_config_create_endpoint], also session_server.c 2368-2384: both arrays get one more entry. *)
Definition append (s : st) (n : string) (t : ti) (addr : option string) : st :=
  mkS (firstn (s_count s) (s_endpts s) ++ [mkEp (s_next s) n t None])
      (firstn (s_count s) (s_binds s) ++ [mkB addr 0 None false])
      (S (s_count s)) (s_freed s) (s_closed s) (S (s_next s)).

(** session_server.c 2197-2258 [nc_server_set_address_port] for the endpoint at [i].  [address] and [port] are the arguments;
    [listens]: listen_inet() or listen_unix() gives a socket. *)
Definition set_address_port (s : st) (i : nat) (address : option string) (port : N) (listens : bool) : res :=
  match nth_error (s_endpts s) i, nth_error (s_binds s) i with
  | Some e, Some b =>
      let unix := match e_ti e with TUnix => true | _ => false end in
      let isset := match address with Some _ => true | None => false end in
      if negb ((isset && N.eqb port 0) || (negb isset && negb (N.eqb port 0)) || unix) then Abort
      else
        let port' := if isset then b_port b else port in
        let address' := if isset then address else b_addr b in
        if ((match address' with Some _ => true | None => false end) && negb (N.eqb port' 0)) || unix then
          if listens then
            let s1 := close s b in
            let s2 := set_bind s1 i (mkB (b_addr b) (b_port b) (Some (s_next s1, e_id e)) (b_pollin b)) in
            let s3 := set_next s2 (S (s_next s2)) in
            Ok s3 (match e_ti e with TNone => 1 | _ => 0 end)
          else Ok s 1
        else Ok s 0
  | _, _ => OutOfBounds
  end.

(** session_server.c 2349-2415 [nc_server_add_endpt_unix_socket_listen]; memory is taken to suffice. *)
Definition add_unix (s : st) (n path : string) (listens : bool) : res :=
  match get_endpt s n with
  | Some _ => Ok s 1
  | None => let s1 := append s n TUnix (Some path) in set_address_port s1 (s_count s) None 0 listens
  end.

(* ------------------------------------------------------------------ *)
(** ** Removals *)

(** server_config.c 671-690 [nc_server_config_del_endpt_references], the listening endpoints: the names that refer to the endpoint. *)
Fixpoint del_refs (k : nat) (i : nat) (s : st) (n : string) : option st :=
  match k with
  | O => Some s
  | S k' =>
      match nth_error (s_endpts s) i with
      | None => None
      | Some e =>
          match e_ref e with
          | Some (rid, rn) =>
              if String.eqb rn n then
                match free s rid with
                | None => None
                | Some s1 => del_refs k' (S i) (set_endpt s1 i (mkEp (e_id e) (e_name e) (e_ti e) None)) n
                end
              else del_refs k' (S i) s n
          | None => del_refs k' (S i) s n
          end
      end
  end.

(** server_config.c 720-740, 852-871 [nc_server_config_del_endpt_ssh], [..._tls] and session_server.c 2432-2449
    [_nc_server_del_endpt_unix_socket] for the entry at [i]; [refs]: references are removed first. *)
Definition del_at (s : st) (i : nat) (refs : bool) : res :=
  match nth_error (s_endpts s) i with
  | None => OutOfBounds
  | Some e0 =>
      match (if refs then del_refs (s_count s) 0 s (e_name e0) else Some s) with
      | None => DoubleFree
      | Some s1 =>
          match nth_error (s_endpts s1) i, nth_error (s_binds s1) i with
          | Some e, Some b =>
              match free s1 (e_id e) with
              | None => DoubleFree
              | Some s2 =>
                  match (if refs then free_ref s2 e else Some s2) with
                  | None => DoubleFree
                  | Some s3 =>
                      let s4 := close s3 b in
                      let c := (s_count s4 - 1)%nat in
                      if Nat.eqb c 0 then Ok (mkS [] [] 0 (s_freed s4) (s_closed s4) (s_next s4)) 0
                      else if Nat.eqb i c then Ok (mkS (s_endpts s4) (s_binds s4) c (s_freed s4) (s_closed s4) (s_next s4)) 0
                      else match nth_error (s_endpts s4) c, nth_error (s_binds s4) c with
                           | Some el, Some bl => Ok (mkS (upd (s_endpts s4) i el) (upd (s_binds s4) i bl) c (s_freed s4) (s_closed s4) (s_next s4)) 0
                           | _, _ => OutOfBounds
                           end
                  end
              end
          | _, _ => OutOfBounds
          end
      end
  end.

(** session_server.c 2451-2483 [nc_server_del_endpt_unix_socket] *)
Definition del_unix (s : st) (n : string) : res :=
  match get_endpt s n with
  | None => Ok s 0
  | Some i => match nth_error (s_endpts s) i with
              | Some e => match e_ti e with TUnix => del_at s i false | _ => Ok s 0 end
              | None => OutOfBounds
              end
  end.

(** server_config.c 1143-1165 [nc_server_config_endpoint], deletion. *)
Definition del_endpt (s : st) (n : string) : res :=
  match get_endpt s n with
  | None => Ok s 1
  | Some i => match nth_error (s_endpts s) i with
              | Some e => match e_ti e with TSsh | TTls => del_at s i true | TUnix => Ok s 0 | TNone => Ok s 1 end
              | None => OutOfBounds
              end
  end.

(** server_config.c 979-1011 [nc_server_config_listen], deletion: from [i], [k] entries are left. *)
Fixpoint del_listen_loop (k i : nat) (s : st) : res :=
  match k with
  | O => Ok s 0
  | S k' =>
      match nth_error (s_endpts s) i with
      | None => OutOfBounds
      | Some e =>
          match e_ti e with
          | TSsh | TTls => match del_at s i true with Ok s' _ => del_listen_loop k' (S i) s' | r => r end
          | TUnix => del_listen_loop k' (S i) s
          | TNone => Ok s 1
          end
      end
  end.
Definition del_listen (s : st) : res := del_listen_loop (s_count s) 0 s.

(** session_server.c 896-901 [nc_server_destroy], the UNIX endpoints. *)
Fixpoint del_unix_loop (k i : nat) (s : st) : res :=
  match k with
  | O => Ok s 0
  | S k' =>
      match nth_error (s_endpts s) i with
      | None => OutOfBounds
      | Some e =>
          match e_ti e with
          | TUnix => match del_at s i false with Ok s' _ => del_unix_loop k' (S i) s' | r => r end
          | _ => del_unix_loop k' (S i) s
          end
      end
  end.
(** session_server.c 892-901: the configuration, then the UNIX endpoints. *)
Definition destroy (s : st) : res :=
  match del_listen s with Ok s' _ => del_unix_loop (s_count s') 0 s' | r => r end.

(* ------------------------------------------------------------------ *)
(** ** Operations *)

Inductive op :=
| AddUnix (n path : string) (listens : bool)
| DelUnix (n : string)
| Create (n : string)                                (* server_config.c 1126-1142 *)
| SetTi (n : string) (t : ti)                        (* 1200-1235, 1255-1290: the container ssh or tls; their creation only *)
| SetRef (n : string) (r : string)                   (* 2804-2875, creation or change *)
| DelRef (n : string)                                (* 2804-2875, deletion *)
| SetAddr (n : string) (a : string) (listens : bool) (* 1348-1378 *)
| SetPort (n : string) (p : N) (listens : bool)      (* 1415-1440 *)
| DelEndpt (n : string)
| DelListen.

Definition on (s : st) (n : string) (f : nat -> endpt -> bind -> res) : res :=
  match get_endpt s n with
  | None => Ok s 1
  | Some i => match nth_error (s_endpts s) i, nth_error (s_binds s) i with Some e, Some b => f i e b | _, _ => OutOfBounds end
  end.

Definition step (s : st) (o : op) : res :=
  match o with
  | AddUnix n p l => add_unix s n p l
  | DelUnix n => del_unix s n
  | Create n => Ok (append s n TNone None) 0
  | SetTi n t => on s n (fun i e _ => Ok (set_endpt s i (mkEp (e_id e) (e_name e) t (e_ref e))) 0)
  | SetRef n r =>
      on s n (fun i e _ => match free_ref s e with
                           | None => DoubleFree
                           | Some s1 => Ok (set_next (set_endpt s1 i (mkEp (e_id e) (e_name e) (e_ti e) (Some (s_next s, r)))) (S (s_next s))) 0
                           end)
  | DelRef n =>
      on s n (fun i e _ => match free_ref s e with
                           | None => DoubleFree
                           | Some s1 => Ok (set_endpt s1 i (mkEp (e_id e) (e_name e) (e_ti e) None)) 0
                           end)
  | SetAddr n a l => on s n (fun i _ b => set_address_port (set_bind s i (mkB (Some a) (b_port b) (b_sock b) (b_pollin b))) i (Some a) 0 l)
  | SetPort n p l => on s n (fun i _ b => set_address_port (set_bind s i (mkB (b_addr b) p (b_sock b) (b_pollin b))) i None p l)
  | DelEndpt n => del_endpt s n
  | DelListen => del_listen s
  end.

Fixpoint run (s : st) (os : list op) : res :=
  match os with
  | [] => Ok s 0
  | o :: os' => match step s o with Ok s' _ => run s' os' | r => r end
  end.
