(** Callbacks of the SSH authentication of a client and the mode of the check of host keys
    (session_client_ssh.c 816-995), for connecting and for Call Home. *)
From Coq Require Import List NArith.
Import ListNotations.
Local Open Scope N_scope.

(** A function: one of the library (615 [sshauth_password], 671 [sshauth_interactive],
    739 [sshauth_privkey_passphrase]; they are not in the public headers) or one of the program. *)
Inductive fn := LibPassword | LibInteractive | LibPassphrase | User (n : N).

(** session_p.h 322-350 [struct nc_client_ssh_opts], the fields meant here.  A pointer [priv] is a number, 0 for NULL. *)
Record opts := mkO {
  mode : N;
  auth_password : fn; auth_password_priv : N;
  auth_interactive : fn; auth_interactive_priv : N;
  auth_privkey_passphrase : fn; auth_privkey_passphrase_priv : N }.

(** The context of a thread: [ssh_opts] and [ssh_ch_opts]. *)
Record ctx := mkC { ssh_opts : opts; ssh_ch_opts : opts }.

(** session_client.c 77-90 (main thread) and 163-189 (other threads); NC_SSH_KNOWNHOSTS_ASK is 0. *)
Definition opts0 : opts := mkO 0 LibPassword 0 LibInteractive 0 LibPassphrase 0.
Definition ctx0 : ctx := mkC opts0 opts0.

(** 834-846 [_nc_client_ssh_set_auth_password_clb]. *)
Definition set_password (f : option N) (priv : N) (o : opts) : opts :=
  match f with
  | Some n => mkO (mode o) (User n) priv (auth_interactive o) (auth_interactive_priv o) (auth_privkey_passphrase o) (auth_privkey_passphrase_priv o)
  | None => mkO (mode o) LibPassword 0 (auth_interactive o) (auth_interactive_priv o) (auth_privkey_passphrase o) (auth_privkey_passphrase_priv o)
  end.
(** 848-858 [_nc_client_ssh_get_auth_password_clb], both places given; [None] for NULL. *)
Definition get_password (o : opts) : option N * N :=
  (match auth_password o with User n => Some n | _ => None end, auth_password_priv o).

(** 888-901 [_nc_client_ssh_set_auth_interactive_clb]. *)
Definition set_interactive (f : option N) (priv : N) (o : opts) : opts :=
  match f with
  | Some n => mkO (mode o) (auth_password o) (auth_password_priv o) (User n) priv (auth_privkey_passphrase o) (auth_privkey_passphrase_priv o)
  | None => mkO (mode o) (auth_password o) (auth_password_priv o) LibInteractive 0 (auth_privkey_passphrase o) (auth_privkey_passphrase_priv o)
  end.
(** 903-914 [_nc_client_ssh_get_auth_interactive_clb]. *)
Definition get_interactive (o : opts) : option N * N :=
  (match auth_interactive o with User n => Some n | _ => None end, auth_interactive_priv o).

(** 946-957 [_nc_client_ssh_set_auth_privkey_passphrase_clb]. *)
Definition set_passphrase (f : option N) (priv : N) (o : opts) : opts :=
  match f with
  | Some n => mkO (mode o) (auth_password o) (auth_password_priv o) (auth_interactive o) (auth_interactive_priv o) (User n) priv
  | None => mkO (mode o) (auth_password o) (auth_password_priv o) (auth_interactive o) (auth_interactive_priv o) LibPassphrase 0
  end.
(** 959-969 [_nc_client_ssh_get_auth_privkey_passphrase_clb]. *)
Definition get_passphrase (o : opts) : option N * N :=
  (match auth_privkey_passphrase o with User n => Some n | _ => None end, auth_privkey_passphrase_priv o).

(** 822-826, 828-832 [nc_client_ssh_set_knownhosts_mode], [nc_client_ssh_ch_set_knownhosts_mode]. *)
Definition set_mode (m : N) (o : opts) : opts :=
  mkO m (auth_password o) (auth_password_priv o) (auth_interactive o) (auth_interactive_priv o) (auth_privkey_passphrase o) (auth_privkey_passphrase_priv o).

Definition on_ssh (f : opts -> opts) (c : ctx) : ctx := mkC (f (ssh_opts c)) (ssh_ch_opts c).
Definition on_ch (f : opts -> opts) (c : ctx) : ctx := mkC (ssh_opts c) (f (ssh_ch_opts c)).

(** The public setters (822-995), each with the options it passes. *)
Inductive call :=
| nc_client_ssh_set_knownhosts_mode (m : N)
| nc_client_ssh_ch_set_knownhosts_mode (m : N)
| nc_client_ssh_set_auth_password_clb (f : option N) (priv : N)
| nc_client_ssh_ch_set_auth_password_clb (f : option N) (priv : N)
| nc_client_ssh_set_auth_interactive_clb (f : option N) (priv : N)
| nc_client_ssh_ch_set_auth_interactive_clb (f : option N) (priv : N)
| nc_client_ssh_set_auth_privkey_passphrase_clb (f : option N) (priv : N)
| nc_client_ssh_ch_set_auth_privkey_passphrase_clb (f : option N) (priv : N).

Definition do (c : ctx) (e : call) : ctx :=
  match e with
  | nc_client_ssh_set_knownhosts_mode m => on_ssh (set_mode m) c
  | nc_client_ssh_ch_set_knownhosts_mode m => on_ch (set_mode m) c
  | nc_client_ssh_set_auth_password_clb f p => on_ssh (set_password f p) c
  | nc_client_ssh_ch_set_auth_password_clb f p => on_ch (set_password f p) c
  | nc_client_ssh_set_auth_interactive_clb f p => on_ssh (set_interactive f p) c
  | nc_client_ssh_ch_set_auth_interactive_clb f p => on_ch (set_interactive f p) c
  | nc_client_ssh_set_auth_privkey_passphrase_clb f p => on_ssh (set_passphrase f p) c
  | nc_client_ssh_ch_set_auth_privkey_passphrase_clb f p => on_ch (set_passphrase f p) c
  end.

Definition history (l : list call) : ctx := fold_left do l ctx0.

(** The public getters (868-885, 924-943, 979-995). *)
Definition nc_client_ssh_get_auth_password_clb (c : ctx) := get_password (ssh_opts c).
Definition nc_client_ssh_ch_get_auth_password_clb (c : ctx) := get_password (ssh_ch_opts c).
Definition nc_client_ssh_get_auth_interactive_clb (c : ctx) := get_interactive (ssh_opts c).
Definition nc_client_ssh_ch_get_auth_interactive_clb (c : ctx) := get_interactive (ssh_ch_opts c).
Definition nc_client_ssh_get_auth_privkey_passphrase_clb (c : ctx) := get_passphrase (ssh_opts c).
Definition nc_client_ssh_ch_get_auth_privkey_passphrase_clb (c : ctx) := get_passphrase (ssh_ch_opts c).

(** 1393, 1437, 1499 and 1321: which function the authentication of a connection calls with which pointer, and
    the mode of its check of the host key.  [ch]: the connection is a Call Home one (1988), else one of nc_connect_ssh() or nc_connect_libssh() (1869). *)
Definition opts_of (ch : bool) (c : ctx) : opts := if ch then ssh_ch_opts c else ssh_opts c.
Definition asks_password (ch : bool) (c : ctx) : fn * N := (auth_password (opts_of ch c), auth_password_priv (opts_of ch c)).
Definition asks_interactive (ch : bool) (c : ctx) : fn * N := (auth_interactive (opts_of ch c), auth_interactive_priv (opts_of ch c)).
Definition asks_passphrase (ch : bool) (c : ctx) : fn * N := (auth_privkey_passphrase (opts_of ch c), auth_privkey_passphrase_priv (opts_of ch c)).
Definition checks (ch : bool) (c : ctx) : N := mode (opts_of ch c).
