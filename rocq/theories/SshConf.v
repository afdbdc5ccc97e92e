(** Configuration of the SSH options of listening endpoints, without the keys (Stores) and the algorithms (Algs):
    src/server_config.c 137-164, 224-307, 538-587, 620-667, 720-739, 1100-1245, 1684-1725, 2120-2202, 2341-2445, 3847-3967,
    4143-4212.  Nodes, operations and positions in the tree are those of ChConf, arrays those of KsTs. *)
From Coq Require Import String List Arith Bool NArith ZArith.
From Verif Require Import Bytes ChConf KsTs.
Import ListNotations.
Local Open Scope list_scope.

(** session_p.h 172-196 [struct nc_auth_client], 150-170 [struct nc_hostkey], 198-220 [struct nc_server_ssh_opts]: the parts set here.  The
    numbers stand for the blocks of memory an entry owns.  The public keys of a user and the key of a host key are in Stores,
    and are freed with the entry. *)
Record user := mkU { u_id : nat; u_name : bytes; u_pw : option bytes; u_kb : bool; u_none : bool }.
Record hostkey := mkH { h_id : nat; h_name : bytes }.
Record opts := mkP { p_users : arr user; p_keys : arr hostkey; p_timeout : N }.
(** opts.ssh of an endpoint: NULL, options, or a pointer to freed ones. *)
Inductive optr := ONull | OAt (o : opts) | ODangling.
Record endpt := mkEp { e_id : nat; e_name : bytes; e_opts : optr }.
Record sst := mkSt { eps : arr endpt; s_freed : list nat; s_made : nat }.
Definition sinit : sst := mkSt null [] 0.
Inductive sres := SOk (s : sst) | SFail (s : sst) | SUb (s : sst).

Definition free_user (x : user) : list nat -> option (list nat) := free_id (u_id x).
Definition free_hostkey (x : hostkey) : list nat -> option (list nat) := free_id (h_id x).
(** 638-667 [nc_server_config_del_ssh_opts]. *)
Definition del_opts (o : opts) (f : list nat) : option (list nat) :=
  match del_loop free_hostkey (p_keys o) 0 (cnt (p_keys o)) f with
  | None => None
  | Some (_, f1) => match del_loop free_user (p_users o) 0 (cnt (p_users o)) f1 with None => None | Some (_, f2) => Some f2 end
  end.
(** 720-739 [nc_server_config_del_endpt_ssh] for the entry: its name, then its options; no other endpoint refers to it. *)
Definition free_endpt (x : endpt) (f : list nat) : option (list nat) :=
  match free_id (e_id x) f with
  | None => None
  | Some f1 => match e_opts x with OAt o => del_opts o f1 | _ => None end
  end.

(** 137-164 [nc_server_config_get_endpt]. *)
Definition with_endpt (p : list dnode) (s : sst) (g : nat -> endpt -> sres) : sres :=
  match list_key p (bs "endpoint") (bs "name") with
  | None => SFail s
  | Some n => match find_at e_name (live (eps s)) n with None => SFail s | Some (i, x) => g i x end
  end.
Definition wr_endpt (s : sst) (i : nat) (x : endpt) (f : list nat) (m : nat) : sst :=
  mkSt (mkA (set_at (slots (eps s)) i x) (cnt (eps s))) f m.
(** 224-245 [nc_server_config_get_ssh_opts]; what is found is used by all callers. *)
Definition with_opts (p : list dnode) (s : sst) (g : nat -> endpt -> opts -> sres) : sres :=
  with_endpt p s (fun i x => match e_opts x with OAt o => g i x o | _ => SUb s end).
Definition set_opts (x : endpt) (o : opts) : endpt := mkEp (e_id x) (e_name x) (OAt o).
(** 280-307 [nc_server_config_get_auth_client]. *)
Definition with_user (p : list dnode) (s : sst) (g : nat -> endpt -> opts -> nat -> user -> sres) : sres :=
  with_opts p s (fun i x o =>
    match list_key p (bs "user") (bs "name") with
    | None => SFail s
    | Some n => match find_at u_name (live (p_users o)) n with None => SFail s | Some (j, y) => g i x o j y end
    end).
Definition wr_user (s : sst) (i : nat) (x : endpt) (o : opts) (j : nat) (y : user) : sst :=
  wr_endpt s i (set_opts x (mkP (mkA (set_at (slots (p_users o)) j y) (cnt (p_users o))) (p_keys o) (p_timeout o))) (s_freed s) (s_made s).

(** The key of the node itself, its first child (1107, 2123). *)
Definition own_key (p : list dnode) : bytes := match p with d :: _ => match d_kids d with k :: _ => d_str k | [] => [] end | [] => [] end.

(** 979-1011 [nc_server_config_listen].  An endpoint without a transport makes it fail; that those before it are deleted is left out. *)
Definition h_listen (o : op) (s : sst) : sres :=
  match o with
  | ODelete =>
      if existsb (fun x => match e_opts x with ONull => true | _ => false end) (live (eps s)) then SFail s
      else match del_loop free_endpt (eps s) 0 (cnt (eps s)) (s_freed s) with None => SUb s | Some (a, f) => SOk (mkSt a f (s_made s)) end
  | _ => SOk s
  end.
(** 1126-1163 [nc_server_config_endpoint]. *)
Definition h_endpoint (p : list dnode) (o : op) (s : sst) : sres :=
  match o with
  | OCreate => match add (mkEp (s_made s) (own_key p) ONull) (eps s) with None => SUb s | Some a => SOk (mkSt a (s_freed s) (S (s_made s))) end
  | ODelete =>
      with_endpt p s (fun i x =>
        match e_opts x with
        | ONull => SFail s                                                      (* the transport is NC_TI_NONE *)
        | _ => match KsTs.del_at free_endpt (eps s) i (s_freed s) with None => SUb s | Some (a, f) => SOk (mkSt a f (s_made s)) end
        end)
  | _ => SOk s
  end.
(** 1201-1209, 1221-1247 [nc_server_config_ssh]. *)
Definition h_ssh (p : list dnode) (o : op) (s : sst) : sres :=
  with_endpt p s (fun i x =>
    match o with
    | OCreate => SOk (wr_endpt s i (mkEp (e_id x) (e_name x) (OAt (mkP null null 0))) (s_freed s) (s_made s))
    | ODelete =>
        match e_opts x with
        | OAt q => match del_opts q (s_freed s) with
                   | None => SUb s
                   | Some f => SOk (wr_endpt s i (mkEp (e_id x) (e_name x) ODangling) f (s_made s))
                   end
        | _ => SUb s
        end
    | _ => SOk s
    end).
(** 1684-1725 [nc_server_config_host_key], 567-587. *)
Definition h_hostkey (p : list dnode) (o : op) (s : sst) : sres :=
  if equal_parent_name p 1 (bs "server-identity") then
    with_opts p s (fun i x q =>
      match o with
      | OCreate =>
          match add (mkH (s_made s) (own_key p)) (p_keys q) with
          | None => SUb s
          | Some a => SOk (wr_endpt s i (set_opts x (mkP (p_users q) a (p_timeout q))) (s_freed s) (S (s_made s)))
          end
      | ODelete =>
          match list_key p (bs "host-key") (bs "name") with
          | None => SFail s
          | Some n =>
              match find_at h_name (live (p_keys q)) n with
              | None => SFail s
              | Some (j, _) =>
                  match KsTs.del_at free_hostkey (p_keys q) j (s_freed s) with
                  | None => SUb s
                  | Some (a, f) => SOk (wr_endpt s i (set_opts x (mkP (p_users q) a (p_timeout q))) f (s_made s))
                  end
              end
          end
      | _ => SOk s
      end)
  else SOk s.
(** 2120-2170 [nc_server_config_user], 620-636. *)
Definition h_user (p : list dnode) (o : op) (s : sst) : sres :=
  with_opts p s (fun i x q =>
    match o with
    | OCreate =>
        match add (mkU (s_made s) (own_key p) None false false) (p_users q) with
        | None => SUb s
        | Some a => SOk (wr_endpt s i (set_opts x (mkP a (p_keys q) (p_timeout q))) (s_freed s) (S (s_made s)))
        end
    | ODelete =>
        with_user p s (fun i x q j _ =>
          match KsTs.del_at free_user (p_users q) j (s_freed s) with
          | None => SUb s
          | Some (a, f) => SOk (wr_endpt s i (set_opts x (mkP a (p_keys q) (p_timeout q))) f (s_made s))
          end)
    | _ => SOk s
    end).
(** 2173-2202 [nc_server_config_auth_timeout]. *)
Definition h_timeout (p : list dnode) (o : op) (s : sst) : sres :=
  with_opts p s (fun i x q =>
    if setting o then SOk (wr_endpt s i (set_opts x (mkP (p_users q) (p_keys q) (match p with d :: _ => d_num d | [] => 0%N end))) (s_freed s) (s_made s))
    else SOk s).
(** 2341-2376 [nc_server_config_password]. *)
Definition h_password (p : list dnode) (o : op) (s : sst) : sres :=
  with_user p s (fun i x q j y =>
    SOk (wr_user s i x q j (mkU (u_id y) (u_name y) (if setting o then Some (match p with d :: _ => d_str d | [] => [] end) else None) (u_kb y) (u_none y)))).
Definition creating (o : op) : bool := match o with OCreate => true | _ => false end.
(** 2378-2410 [nc_server_config_use_system_auth]. *)
Definition h_sysauth (p : list dnode) (o : op) (s : sst) : sres :=
  with_user p s (fun i x q j y => SOk (wr_user s i x q j (mkU (u_id y) (u_name y) (u_pw y) (creating o) (u_none y)))).
(** 2413-2445 [nc_server_config_none]. *)
Definition h_none (p : list dnode) (o : op) (s : sst) : sres :=
  with_user p s (fun i x q j y => SOk (wr_user s i x q j (mkU (u_id y) (u_name y) (u_pw y) (u_kb y) (creating o)))).

(** 3847-3967 [nc_server_config_parse_netconf_server]; the handlers of the other nodes change nothing of the above, and are taken
    to succeed.  There is none for "keyboard-interactive". *)
Definition s_handle (p : list dnode) (o : op) (s : sst) : sres :=
  match p with
  | [] => SOk s
  | d :: _ =>
    let is n := beqb (d_name d) (bs n) in
    if is "endpoint" then h_endpoint p o s
    else if is "listen" then h_listen o s
    else if is "ssh" then h_ssh p o s
    else if is "auth-timeout" then h_timeout p o s
    else if is "host-key" then h_hostkey p o s
    else if is "none" then h_none p o s
    else if is "password" then h_password p o s
    else if is "user" then h_user p o s
    else if is "use-system-auth" then h_sysauth p o s
    else SOk s
  end%string.

(** 4143-4212 [nc_server_config_parse_tree]. *)
Fixpoint s_walk (d : dnode) (anc : list dnode) (parent : option op) (s : sst) {struct d} : sres :=
  match cur_op d parent with
  | None => SFail s
  | Some o =>
      match (match o with ONone => SOk s | _ => s_handle (d :: anc) o s end) with
      | SOk s1 =>
          match o with
          | ODelete => SOk s1
          | _ => match d with
                 | DN _ _ _ _ _ _ kids =>
                   (fix go (ks : list dnode) (s : sst) : sres :=
                      match ks with
                      | [] => SOk s
                      | k :: r => match s_walk k (d :: anc) (Some o) s with SOk s2 => go r s2 | x => x end
                      end) kids s1
                 end
          end
      | x => x
      end
  end.
(** 4368-4421 [nc_server_config_setup_diff], for the container "listen". *)
Definition s_diff (d : dnode) (s : sst) : sres := s_walk d [] None s.
(** 4423-4502 [nc_server_config_setup_data]: all is deleted and the data are applied as created. *)
Definition s_data (d : dnode) (s : sst) : sres :=
  match h_listen ODelete s with SOk s1 => s_walk d [] (Some OCreate) s1 | x => x end.

(** What is used of the options of an endpoint when a client authenticates. *)
Definition the_users (s : sst) (n : bytes) : option (list user) :=
  match find_at e_name (live (eps s)) n with Some (_, x) => match e_opts x with OAt o => Some (live (p_users o)) | _ => None end | None => None end.
