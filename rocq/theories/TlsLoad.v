(** The certificates a TLS server works with: its own, and the authorities it checks clients against.
    src/session_server_tls.c 38-100, 666-744, 770-858, src/session.c 141-157. *)
From Coq Require Import String NArith Bool List.
Import ListNotations.
Local Open Scope string_scope.
Local Open Scope list_scope.

(* ------------------------------------------------------------------ *)
(** ** Configuration *)

(** session_p.h 89-92 [struct nc_certificate]: name and data, which may be missing (NULL). *)
Record centry := mkC { c_name : string; c_data : option string }.
(** session_p.h 103-113 [struct nc_asymmetric_key], without the public key; [k_fmt]: the format of the private key. *)
Record kentry := mkK { k_name : string; k_priv : option string; k_fmt : nat; k_certs : list centry }.
(** session_p.h 94-98 [struct nc_certificate_bag] *)
Record bag := mkB { b_name : string; b_certs : list centry }.

(** session_p.h 223-232 [struct nc_cert_grouping]; a reference may be NULL. *)
Inductive grp := GLocal (cs : list centry) | GTrust (ref : option string).
(** session_p.h 256-285 [struct nc_server_tls_opts] as far as it is used here; the name of the referenced endpoint. *)
Inductive ident := ILocal (cert priv : option string) (fmt : nat) | IKeystore (key cert : option string).
Record opts := mkO { o_id : ident; o_ca : grp; o_ee : grp; o_ref : option string }.
(** An endpoint of [server_opts.endpts]; [None]: its options are not those of TLS. *)
Record endpt := mkE { e_name : string; e_tls : option opts }.
Record conf := mkConf { f_ks : list kentry; f_ts : list bag; f_eps : list endpt }.

(* ------------------------------------------------------------------ *)
(** ** Results *)

(** [Wild]: a NULL pointer is given to strcmp(), or the options of something else are used. *)
Inductive res (A : Type) := Ok (a : A) | Err | Wild.
Arguments Ok {A}. Arguments Err {A}. Arguments Wild {A}.

(** strcmp() loops over arrays: the first entry with the name; nothing is compared if there are none. *)
Fixpoint look {A} (name : A -> string) (r : option string) (l : list A) : res A :=
  match l with
  | [] => Err
  | x :: l' => match r with None => Wild | Some n => if String.eqb n (name x) then Ok x else look name r l' end
  end.

(** Lines 38-74 [nc_server_tls_ks_ref_get_cert_key] *)
Definition ks_ref (ks : list kentry) (key cert : option string) : res (option string * nat * option string) :=
  match look k_name key ks with
  | Ok k => match look c_name cert (k_certs k) with
            | Ok c => Ok (k_priv k, k_fmt k, c_data c)
            | Err => Err
            | Wild => Wild
            end
  | Err => Err
  | Wild => Wild
  end.

(** Lines 76-100 [nc_server_tls_truststore_ref_get_certs] *)
Definition ts_ref (ts : list bag) (r : option string) : res (list centry) :=
  match look b_name r ts with Ok b => Ok (b_certs b) | Err => Err | Wild => Wild end.

(* ------------------------------------------------------------------ *)
(** ** Objects of the TLS library *)

Section Lib.
(** session.c 141-157 with nc_tls_pem_to_cert_wrap(), session_server_tls.c 102-118: what is made of the data, if anything;
    [lib_add]: whether the library takes a certificate into a store. *)
Context {cert key : Type}.
Variable lib_cert : string -> option cert.
Variable lib_key : string -> nat -> option key.
Variable lib_add : cert -> bool.

(** The objects that are made and freed. *)
Inductive obj := OCfg | OStore | OCert (c : cert) | OKey (k : key).
Inductive ev := New (o : obj) | Free (o : obj) | Give (c : cert).    (* [Give]: into the store, which frees it with itself *)

(** Lines 666-708 [nc_server_tls_load_server_cert_key] *)
Definition load_server (ks : list kentry) (i : ident) : res (cert * key) * list ev :=
  let go (p : option string) (f : nat) (c : option string) :=
    match c, p with
    | Some c, Some p =>
      match lib_cert c with
      | None => (Err, [])
      | Some x => match lib_key p f with
                  | None => (Err, [New (OCert x); Free (OCert x)])
                  | Some k => (Ok (x, k), [New (OCert x); New (OKey k)])
                  end
      end
    | _, _ => (Err, [])
    end in
  match i with
  | ILocal c p f => go p f c
  | IKeystore kr cr => match ks_ref ks kr cr with
                       | Ok (p, f, c) => go p f c
                       | Err => (Err, [])
                       | Wild => (Wild, [])
                       end
  end.

(** Lines 728-742: the certificates into the store; an entry without data is an error (session.c 147). *)
Fixpoint add_all (cs : list centry) (store : list cert) : bool * list cert * list ev :=
  match cs with
  | [] => (true, store, [])
  | c :: r =>
    match match c_data c with Some d => lib_cert d | None => None end with
    | None => (false, store, [])
    | Some x =>
      if lib_add x then let '(ok, s, l) := add_all r (store ++ [x]) in (ok, s, New (OCert x) :: Give x :: l)
      else (false, store, [New (OCert x); Free (OCert x)])
    end
  end.

(** Lines 710-744 [nc_server_tls_load_trusted_certs] *)
Definition load_trusted (ts : list bag) (g : grp) (store : list cert) : res unit * list cert * list ev :=
  match g with
  | GLocal cs => let '(ok, s, l) := add_all cs store in (if ok then Ok tt else Err, s, l)
  | GTrust r => match ts_ref ts r with
                | Ok cs => let '(ok, s, l) := add_all cs store in (if ok then Ok tt else Err, s, l)
                | Err => (Err, store, [])
                | Wild => (Wild, store, [])
                end
  end.

(** Lines 770-791 [nc_server_tls_get_num_certs]: -1 as uint16_t.  The counts are lengths of arrays (at most 65535). *)
Definition num_certs (ts : list bag) (g : grp) : res N :=
  match g with
  | GLocal cs => Ok (N.of_nat (length cs))
  | GTrust r => match ts_ref ts r with Ok cs => Ok (N.of_nat (length cs)) | Err => Ok 65535%N | Wild => Wild end
  end.
(** The sums of 848-853. *)
Fixpoint sum (ts : list bag) (gs : list grp) : res N :=
  match gs with
  | [] => Ok 0%N
  | g :: r => match num_certs ts g, sum ts r with Ok a, Ok b => Ok (a + b)%N | Wild, _ | _, Wild => Wild | _, _ => Err end
  end.

(** session_server.c 115-129 [nc_server_get_referenced_endpt] *)
Definition referenced (f : conf) (n : string) : res opts :=
  match look e_name (Some n) (f_eps f) with
  | Ok e => match e_tls e with Some o => Ok o | None => Wild end
  | Err => Err
  | Wild => Wild
  end.

(** The end of 923-941: what was made is freed; the store with the certificates in it. *)
Definition cleanup (own : option (cert * key)) (store : list cert) : list ev :=
  Free OCfg :: match own with Some (x, k) => [Free (OCert x); Free (OKey k)] | None => [] end
  ++ map (fun c => Free (OCert c)) store ++ [Free OStore].

(** Lines 793-858 [nc_accept_tls_session] as far as the certificates are loaded and counted: the certificate and the key of
    the server and the store, or the connection is refused.  [Wild]: from there on nothing is known. *)
Definition setup (f : conf) (o : opts) : res (cert * key * list cert) * list ev :=
  let start := [New OCfg; New OStore] in
  match load_server (f_ks f) (o_id o) with
  | (Wild, l) => (Wild, start ++ l)
  | (Err, l) => (Err, start ++ l ++ cleanup None [])
  | (Ok own, l) =>
    let log := start ++ l in
    match load_trusted (f_ts f) (o_ca o) [] with
    | (Wild, _, l) => (Wild, log ++ l)
    | (Err, s, l) => (Err, log ++ l ++ cleanup (Some own) s)
    | (Ok _, s, l) =>
      let log := log ++ l in
      match o_ref o with
      | None =>
        match sum (f_ts f) [o_ca o; o_ee o] with
        | Ok n => if N.eqb n 0 then (Err, log ++ cleanup (Some own) s) else (Ok (own, s), log)
        | Err => (Err, log ++ cleanup (Some own) s)
        | Wild => (Wild, log)
        end
      | Some n =>
        match referenced f n with
        | Wild => (Wild, log)
        | Err => (Err, log ++ cleanup (Some own) s)
        | Ok o' =>
          match load_trusted (f_ts f) (o_ca o') s with
          | (Wild, _, l) => (Wild, log ++ l)
          | (Err, s, l) => (Err, log ++ l ++ cleanup (Some own) s)
          | (Ok _, s, l) =>
            let log := log ++ l in
            match sum (f_ts f) [o_ca o; o_ee o; o_ca o'; o_ee o'] with
            | Ok n => if N.eqb n 0 then (Err, log ++ cleanup (Some own) s) else (Ok (own, s), log)
            | Err => (Err, log ++ cleanup (Some own) s)
            | Wild => (Wild, log)
            end
          end
        end
      end
    end
  end.
End Lib.
Arguments obj : clear implicits. Arguments ev : clear implicits.
