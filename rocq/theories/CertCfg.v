(** Model of the configured intervals of the notifications about expiring certificates, src/server_config.c 3968-4118,
    of the collecting of all certificates and of the XPaths they are notified with, src/session_server.c 3295-3352,
    3546-3763, 3806-3823, 3844-3872. *)
From Coq Require Import Ascii String ZArith Bool Lia List.
From Verif Require Import Bytes CStr CertExp.
Import ListNotations.
Local Open Scope Z_scope.

(* ------------------------------------------------------------------ *)
(** ** Intervals *)

(** strtol(s, NULL, 10) for the characters before the first that is no digit; neither white space nor signs before the number are
    modelled (the type of the leaf allows none): 0 then.  Values behind the range of long become its largest. *)
Fixpoint digits (s : bytes) (acc : Z) : Z :=
  match s with
  | c :: s => let d := Z.of_nat (nat_of_ascii c) - 48 in
              if (0 <=? d) && (d <=? 9) then digits s (acc * 10 + d) else acc
  | [] => acc
  end.
Definition strtol (s : bytes) : Z := Z.min (digits s 0) (2 ^ 63 - 1).
(** long stored in an int. *)
Definition to_int (z : Z) : Z := (z + 2 ^ 31) mod 2 ^ 32 - 2 ^ 31.

(** What a function did: [Wild]: an access out of bounds or to uninitialised memory. *)
Inductive out (A : Type) := Ret (a : A) | Wild.
Arguments Ret {A}. Arguments Wild {A}.

(** server_config.c 3994-4021 [nc_server_config_yang_value2cert_exp_time]; the struct is 0 before.  An empty string
    is accessed before its start. *)
Definition value2cert_exp_time (value : bytes) : out (option ptime) :=
  match rev value with
  | [] => Wild
  | unit :: _ =>
      let v := to_int (strtol value) in
      Ret (if Ascii.eqb unit "m" then Some (mkP v 0 0 0)
           else if Ascii.eqb unit "w" then Some (mkP 0 v 0 0)
           else if Ascii.eqb unit "d" then Some (mkP 0 0 v 0)
           else if Ascii.eqb unit "h" then Some (mkP 0 0 0 v)
           else None)
  end.

(** server_opts.cert_exp_notif: the array (a cell may be uninitialised) and the count. *)
Record notif := { n_cells : option (list (option ptime * option ptime)); n_count : nat }.
Definition notif0 : notif := {| n_cells := None; n_count := 0 |}.

Fixpoint set_nth {A} (n : nat) (a : A) (l : list A) : list A :=
  match n, l with
  | _, [] => []
  | O, _ :: l => a :: l
  | S n, x :: l => x :: set_nth n a l
  end.

(** nc_realloc() of the array to [n] cells. *)
Definition resize (n : nat) (l : option (list (option ptime * option ptime))) : list (option ptime * option ptime) :=
  let l := match l with Some l => l | None => [] end in
  firstn n (l ++ repeat (None, None) n).

(** server_config.c 4023-4051 [nc_server_config_create_interval]; [mem]: nc_realloc() succeeds. *)
Definition create_interval (mem : bool) (anchor period : bytes) (s : notif) : out (nat * notif) :=
  if negb mem then Ret (1%nat, {| n_cells := None; n_count := n_count s |})
  else
    let cells := resize (S (n_count s)) (n_cells s) in
    match value2cert_exp_time anchor with
    | Wild => Wild
    | Ret None => Ret (1%nat, {| n_cells := Some cells; n_count := n_count s |})
    | Ret (Some a) =>
        match value2cert_exp_time period with
        | Wild => Wild
        | Ret None => Ret (1%nat, {| n_cells := Some (set_nth (n_count s) (Some a, None) cells); n_count := n_count s |})
        | Ret (Some p) => Ret (0%nat, {| n_cells := Some (set_nth (n_count s) (Some a, Some p) cells); n_count := S (n_count s) |})
        end
    end.

Definition ptime_eqb (a b : ptime) : bool :=
  (pt_months a =? pt_months b) && (pt_weeks a =? pt_weeks b) && (pt_days a =? pt_days b) && (pt_hours a =? pt_hours b).

(** 4066-4071: the index of the interval among the first [n], [n] if there is none. *)
Fixpoint find_cell (a p : ptime) (n : nat) (cells : list (option ptime * option ptime)) : out nat :=
  match n with
  | O => Ret O
  | S n =>
      match cells with
      | (Some a', Some p') :: cells =>
          if ptime_eqb a' a && ptime_eqb p' p then Ret O
          else match find_cell a p n cells with Ret i => Ret (S i) | Wild => Wild end
      | _ => Wild
      end
  end.

(** server_config.c 4053-4085 [nc_server_config_del_interval]. *)
Definition del_interval (anchor period : bytes) (s : notif) : out notif :=
  match value2cert_exp_time anchor with
  | Wild => Wild
  | Ret None => Ret s
  | Ret (Some a) =>
      match value2cert_exp_time period with
      | Wild => Wild
      | Ret None => Ret s
      | Ret (Some p) =>
          match find_cell a p (n_count s) (match n_cells s with Some l => l | None => [] end) with
          | Wild => Wild
          | Ret i =>
              if Nat.eqb i (n_count s) then Ret s
              else
                let count := (n_count s - 1)%nat in
                if Nat.eqb count 0 then Ret {| n_cells := None; n_count := 0 |}
                else if negb (Nat.eqb i count) then
                  match n_cells s with
                  | Some l => match nth_error l count with
                              | Some c => Ret {| n_cells := Some (set_nth i c l); n_count := count |}
                              | None => Wild
                              end
                  | None => Wild
                  end
                else Ret {| n_cells := n_cells s; n_count := count |}
          end
      end
  end.

(** What the configuration does: an interval is created or replaced, an interval is deleted (4087-4118
    [nc_server_config_interval]), or the container is (3968-3990 [nc_server_config_ln2_netconf_server]). *)
Inductive op := Create (mem : bool) (anchor period : bytes) | Delete (anchor period : bytes) | Clear.
Definition apply_op (o : op) (s : notif) : out (nat * notif) :=
  match o with
  | Create mem a p => create_interval mem a p s
  | Delete a p => match del_interval a p s with Ret s => Ret (0%nat, s) | Wild => Wild end
  | Clear => Ret (0%nat, {| n_cells := None; n_count := 0 |})
  end.

(** All operations up to the first that fails; its result. *)
Fixpoint apply_ops (l : list op) (s : notif) : out (nat * notif) :=
  match l with
  | [] => Ret (0%nat, s)
  | o :: l => match apply_op o s with
              | Ret (O, s) => apply_ops l s
              | r => r
              end
  end.

(** session_server.c 3844-3872 [nc_server_notif_cert_exp_intervals_get]; [Wild]: some of the intervals are uninitialised. *)
Fixpoint initialised (n : nat) (cells : list (option ptime * option ptime)) : out (list interval) :=
  match n with
  | O => Ret []
  | S n => match cells with
           | (Some a, Some p) :: cells =>
               match initialised n cells with Ret l => Ret (mkI a p :: l) | Wild => Wild end
           | _ => Wild
           end
  end.
Definition intervals_get (s : notif) : out (list interval) :=
  match n_cells s with
  | None => Ret default_intervals
  | Some cells => initialised (n_count s) cells
  end.

(* ------------------------------------------------------------------ *)
(** ** XPaths *)

(** session_p.h [struct nc_cert_path_aux]; NULL is [None]. *)
Record cert_path := mkC {
  ch_client_name : option bytes; endpt_name : option bytes; ca_cert_name : option bytes; ee_cert_name : option bytes;
  ks_askey_name : option bytes; ks_cert_name : option bytes; ts_cbag_name : option bytes; ts_cert_name : option bytes
}.

(** "%s" in the GNU C library. *)
Definition pf (s : option bytes) : bytes := match s with Some s => s | None => bs "(null)" end.

(** session_server.c 3304-3352 [nc_server_notif_cert_exp_xpath_get]; [mem]: the first and the second asprintf() succeed. *)
Definition xpath_get (mem : bool * bool) (cp : cert_path) : option bytes :=
  match ks_cert_name cp with
  | Some ks =>
      if fst mem then Some (bs "/ietf-keystore:keystore/asymmetric-keys/asymmetric-key[name='" ++ pf (ks_askey_name cp) ++
        bs "']/certificates/certificate[name='" ++ ks ++ bs "']/certificate-expiration/expiration-date")%list
      else None
  | None =>
  match ts_cert_name cp with
  | Some ts =>
      if fst mem then Some (bs "/ietf-truststore:truststore/certificate-bags/certificate-bag[name='" ++ pf (ts_cbag_name cp) ++
        bs "']/certificate[name='" ++ ts ++ bs "']/certificate-expiration/expiration-date")%list
      else None
  | None =>
      let tmp := match ch_client_name cp with
                 | Some ch => (bs "/ietf-netconf-server:netconf-server/call-home/netconf-client[name='" ++ ch ++
                     bs "']/endpoints/endpoint[name='" ++ pf (endpt_name cp) ++ bs "']/tls/tls-server-parameters")%list
                 | None => (bs "/ietf-netconf-server:netconf-server/listen/endpoints/endpoint[name='" ++ pf (endpt_name cp) ++
                     bs "']/tls/tls-server-parameters")%list
                 end in
      if negb (fst mem) then None
      else if negb (snd mem) then None
      else match ee_cert_name cp with
           | Some ee => Some (tmp ++ bs "/client-authentication/ee-certs/inline-definition/certificate[name='" ++ ee ++
               bs "']/certificate-expiration/expiration-date")%list
           | None =>
           match ca_cert_name cp with
           | Some ca => Some (tmp ++ bs "/client-authentication/ca-certs/inline-definition/certificate[name='" ++ ca ++
               bs "']/certificate-expiration/expiration-date")%list
           | None => Some (tmp ++ bs "/server-identity/certificate/inline-definition/certificate-expiration/expiration-date")%list
           end
           end
  end
  end.

(* ------------------------------------------------------------------ *)
(** ** Certificates *)

(** Certificates have a name and data (base64).  [t_server]: the data of the server certificate if it is stored
    locally (NULL data is [Some None]); [t_ca], [t_ee]: those stored locally, [None] if stored elsewhere. *)
Definition cert : Type := bytes * option bytes.
Record tls_opts := { t_server : option (option bytes); t_ca : option (list cert); t_ee : option (list cert) }.
(** Endpoints, [None] if the transport is not TLS. *)
Definition endpt : Type := bytes * option tls_opts.
Record config := {
  c_endpts : list endpt;
  c_ch : list (bytes * list endpt);
  c_keystore : list (bytes * list cert);
  c_truststore : list (bytes * list cert)
}.

(** The expiration time, the times of CertExp.v, and the XPath of a certificate. *)
Record entry := { e_exp : Z; e_starts : list Z; e_cur : nat; e_notif : Z; e_xpath : bytes }.

(** What the system does; the number: of entries before.  [v_decode]: nc_base64der_to_cert() and nc_tls_get_cert_exp_time_wrap();
    [v_starts], [v_first]: CertExp.init_starts and CertExp.first_notif (with the time of the call). *)
Record env := {
  v_decode : bytes -> option Z;
  v_realloc : nat -> bool; v_malloc : nat -> bool; v_asprintf : nat -> bool * bool;
  v_starts : Z -> option (list Z);
  v_first : nat -> list Z -> Z -> option (nat * Z);
}.

(** [exp_dates]: the entries, whether the array is there, and how many blocks nothing points to any more. *)
Record dates := { d_entries : list entry; d_array : bool; d_lost : nat }.

(** session_server.c 3558-3605 [nc_server_notif_cert_exp_date_append]; true: it succeeded. *)
Definition date_append (v : env) (data : option bytes) (cp : cert_path) (d : dates) : bool * dates :=
  let n := length (d_entries d) in
  let lose k := {| d_entries := d_entries d; d_array := true; d_lost := k + d_lost d |} in
  match match data with Some data => v_decode v data | None => None end with
  | None => (false, d)
  | Some exp =>
      if negb (v_realloc v n)
      then (false, {| d_entries := d_entries d; d_array := false; d_lost := 2 * n + d_lost d |})
      else if negb (v_malloc v n) then (false, lose 0%nat)
      else match v_starts v exp with
           | None => (false, lose 1%nat)
           | Some starts =>
               match v_first v n starts exp with
               | None => (false, lose 1%nat)
               | Some (cur, t) =>
                   match xpath_get (v_asprintf v n) cp with
                   | None => (false, lose 1%nat)
                   | Some x =>
                       (true, {| d_entries := d_entries d ++ [{| e_exp := exp; e_starts := starts; e_cur := cur; e_notif := t; e_xpath := x |}];
                                 d_array := true; d_lost := d_lost d |})
                   end
               end
           end
  end.

(** A loop that ends at the first failure. *)
Fixpoint each {A} (f : A -> dates -> bool * dates) (l : list A) (d : dates) : bool * dates :=
  match l with
  | [] => (true, d)
  | a :: l => match f a d with
              | (true, d) => each f l d
              | r => r
              end
  end.

(** session_server.c 3619-3671 [nc_server_notif_cert_exp_dates_endpt_get]. *)
Definition dates_endpt_get (v : env) (ch : option bytes) (name : bytes) (o : tls_opts) (d : dates) : bool * dates :=
  match match t_server o with
        | Some data => date_append v data (mkC ch (Some name) None None None None None None) d
        | None => (true, d)
        end with
  | (false, d) => (false, d)
  | (true, d) =>
      match match t_ca o with
            | Some l => each (fun c => date_append v (snd c) (mkC ch (Some name) (Some (fst c)) None None None None None)) l d
            | None => (true, d)
            end with
      | (false, d) => (false, d)
      | (true, d) =>
          match t_ee o with
          | Some l => each (fun c => date_append v (snd c) (mkC ch (Some name) None (Some (fst c)) None None None None)) l d
          | None => (true, d)
          end
      end
  end.

(** 3704-3712 and 3720-3735: the endpoints with TLS. *)
Definition dates_endpts (v : env) (ch : option bytes) (l : list endpt) (d : dates) : bool * dates :=
  each (fun e d => match snd e with Some o => dates_endpt_get v ch (fst e) o d | None => (true, d) end) l d.

(** session_server.c 3682-3763 [nc_server_notif_cert_exp_dates_get]. *)
Definition dates_get (v : env) (c : config) : bool * dates :=
  match dates_endpts v None (c_endpts c) {| d_entries := []; d_array := false; d_lost := 0 |} with
  | (false, d) => (false, d)
  | (true, d) =>
  match each (fun x => dates_endpts v (Some (fst x)) (snd x)) (c_ch c) d with
  | (false, d) => (false, d)
  | (true, d) =>
  match each (fun k => each (fun x => date_append v (snd x) (mkC None None None None (Some (fst k)) (Some (fst x)) None None)) (snd k))
             (c_keystore c) d with
  | (false, d) => (false, d)
  | (true, d) =>
      each (fun b => each (fun x => date_append v (snd x) (mkC None None None None None None (Some (fst b)) (Some (fst x)))) (snd b))
           (c_truststore c) d
  end
  end
  end.

(** session_server.c 3812-3823 [nc_server_notif_cert_exp_dates_destroy], called by the thread when it ends and before it
    reads the certificates again: how many blocks are left. *)
Definition dates_destroy (d : dates) : out nat :=
  if negb (d_array d) && negb (Nat.eqb (length (d_entries d)) 0) then Wild else Ret (d_lost d).
