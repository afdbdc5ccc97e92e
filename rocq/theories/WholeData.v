(** What nc_server_config_setup_data() does to the parts of the server's options that it does not delete first:
    the idle timeout and the intervals of the notifications about expiring certificates. *)
From Coq Require Import NArith List.
From Verif Require Import Bytes CertCfg.
Import ListNotations.

(** server_opts.idle_timeout and server_opts.cert_exp_notif (session_p.h). *)
Record srv := mkSrv { w_idle : N; w_notif : notif }.
(** session_server.c 57: the initial values. *)
Definition srv0 : srv := mkSrv 180 notif0.

(** The data: whether there is the container listen and in it the leaf idle-timeout (present unless the data are without default
    values), and the intervals of ln2-netconf-server in their order. *)
Record data := { d_listen : option (option N); d_intervals : list (bytes * bytes) }.

Inductive op := SetIdle (n : N) | DelIdle | DelListen | Data (d : data) | Diff (l : list CertCfg.op).

(** server_config.c 978-1008 [nc_server_config_listen], 1048-1081 [nc_server_config_idle_timeout] for the idle timeout of listen;
    4423-4502 [nc_server_config_setup_data], 4341-4366 [nc_server_config_fill_libnetconf2_netconf_server], 4143-4211
    [nc_server_config_parse_tree]: the containers listen, call-home, keystore and truststore are deleted before, which
    changes neither; the nodes of the data are then created.  4368-4421 [nc_server_config_setup_diff].  Other parts of the
    configuration succeed and memory suffices. *)
Definition step (o : op) (s : srv) : out srv :=
  match o with
  | SetIdle n => Ret (mkSrv n (w_notif s))
  | DelIdle => Ret (mkSrv 180 (w_notif s))
  | DelListen => Ret s
  | Data d =>
      let idle := match d_listen d with Some (Some n) => n | _ => w_idle s end in
      match apply_ops (map (fun k => Create true (fst k) (snd k)) (d_intervals d)) (w_notif s) with
      | Ret (_, n) => Ret (mkSrv idle n)
      | Wild => Wild
      end
  | Diff l => match apply_ops l (w_notif s) with Ret (_, n) => Ret (mkSrv (w_idle s) n) | Wild => Wild end
  end.
Fixpoint run (l : list op) (s : srv) : out srv := match l with [] => Ret s | o :: l => match step o s with Ret s => run l s | Wild => Wild end end.
