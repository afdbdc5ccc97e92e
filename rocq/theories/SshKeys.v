(** SSH server: path of the key file of a user, reading that file, comparing passwords and public keys
    (src/session_server_ssh.c, src/session_openssl.c). *)
From Coq Require Import Ascii String NArith ZArith Bool Lia List.
From Verif Require Import Bytes CStr ClientMsgs.
Import ListNotations.
Local Open Scope N_scope.

(* ------------------------------------------------------------------ *)
(** ** Path of the key file *)

Definition PCT : ascii := "%"%char.
Definition INT_MAX : N := 2147483647.

(** Result of the path functions: 0 with a value, 1, or memory/int arithmetic gone wrong. *)
Inductive pres (A : Type) := POk (a : A) | PErr | PUb.
Arguments POk {A}. Arguments PErr {A}. Arguments PUb {A}.

(** The destination buffer: its size ([size]) and the string written so far ([idx] is its length). *)
Record pbuf := mkPb { pb_size : N; pb_str : bytes }.

(** session_server_ssh.c 247-251 [nc_server_ssh_str_append]: while src_size + *idx is at least *size, *size grows by 16.
    [None]: int overflow. *)
Fixpoint grow (fuel : nat) (need size : N) : option N :=
  if need <? size then Some size
  else match fuel with
       | O => None
       | S f => if INT_MAX <? size + 16 then None else grow f need (size + 16)
       end.

(** session_server_ssh.c 235-269 [nc_server_ssh_str_append].  [s] is the string (or the one character)
    to append; [alloc n] says whether nc_realloc() to [n] bytes succeeds.  sprintf() writes the string and a
    NUL: [PUb] if they do not fit.  sprintf() itself is taken not to fail. *)
Definition str_append (alloc : N -> bool) (s : bytes) (b : pbuf) : pres pbuf :=
  let need := lenN s + lenN (pb_str b) in
  if INT_MAX <? need then PUb
  else match grow (S (N.to_nat need)) need (pb_size b) with
       | None => PUb
       | Some size =>
           if negb (size =? pb_size b) && negb (alloc size) then PErr
           else if size <? lenN (pb_str b) + lenN s + 1 then PUb
           else POk (mkPb size (pb_str b ++ s))
       end.

(** session_server_ssh.c 315-349: the loop over the format; [hp] is [have_percent]. *)
Fixpoint path_loop (alloc : N -> bool) (home user uid fmt : bytes) (hp : bool) (b : pbuf) : pres pbuf :=
  match fmt with
  | [] => POk b
  | c :: fmt' =>
      if hp then
        let r := if Ascii.eqb c PCT then str_append alloc [PCT] b
                 else if Ascii.eqb c "h" then str_append alloc home b
                 else if Ascii.eqb c "u" then str_append alloc user b
                 else if Ascii.eqb c "U" then str_append alloc uid b
                 else PErr in
        match r with POk b' => path_loop alloc home user uid fmt' false b' | PErr => PErr | PUb => PUb end
      else if Ascii.eqb c PCT then path_loop alloc home user uid fmt' true b
      else match str_append alloc [c] b with
           | POk b' => path_loop alloc home user uid fmt' false b' | PErr => PErr | PUb => PUb end
  end.

Definition has (pat : string) (s : bytes) : bool := match strstr s (bs pat) with Some _ => true | None => false end.

(** session_server_ssh.c 278-356 [nc_server_ssh_get_system_keys_path]: [fmt] is [server_opts.authkey_path_fmt],
    [getpw] finds home and uid of the user, [nc_server_ssh_uid_to_str] (216-233) prints the uid in decimal.
    Not represented: allocation failure of strdup() and of the uid string. *)
Definition system_keys_path (alloc : N -> bool) (getpw : option (bytes * N)) (fmt : option bytes) (user : bytes)
    : pres bytes :=
  match fmt with
  | None => PErr
  | Some f =>
      if has "%h" f || has "%U" f || has "%u" f || has "%%" f then
        match getpw with
        | None => PErr
        | Some (home, uid) =>
            match path_loop alloc home user (dec uid) f false (mkPb 0 []) with
            | POk b => POk (pb_str b) | PErr => PErr | PUb => PUb end
        end
      else POk f
  end.

(* ------------------------------------------------------------------ *)
(** ** Authorized keys file *)

(** getline(): the lines of a file, each with its newline (the last one possibly without). *)
Fixpoint getlines (cur f : bytes) : list bytes :=
  match f with
  | [] => match cur with [] => [] | _ => [cur] end
  | c :: f' => if Ascii.eqb c NL then (cur ++ [c]) :: getlines [] f' else getlines (cur ++ [c]) f'
  end.

(** The loop of lines 396 and 414: the characters before the first white space or NUL, and what is there.
    isspace() on negative characters is false (glibc). *)
Fixpoint word (s : bytes) : bytes * bytes :=
  match s with
  | [] => ([], [])
  | c :: s' => if Ascii.eqb c NUL || is_space c then ([], s) else let '(w, r) := word s' in (c :: w, r)
  end.

Inductive lres := LSkip | LBad | LKey (d : bytes).

Section Authkeys.
(** [supported t]: [ssh_key_type_from_name t] is one of the five types of lines 406-407. *)
Variable supported : bytes -> bool.

(** session_server_ssh.c 387-426: one line of the file. *)
Definition auth_line (line : bytes) : lres :=
  match line with
  | [] => LSkip
  | c :: _ =>
      if Ascii.eqb c HASH || Ascii.eqb c NL then LSkip
      else match word line with
           | (_, []) => LBad
           | (t, e :: rest) =>
               if Ascii.eqb e NUL then LBad
               else if supported t then LKey (fst (word rest))
               else LSkip
           end
  end.

(** Adding a key, lines 418-425: the array is resized to [*pubkey_count + 1] elements and the counter is an
    [uint16_t].  Allocations are taken to succeed. *)
Definition add_key (ks : list bytes * N) (d : bytes) : list bytes * N :=
  (firstn (N.to_nat (snd ks)) (fst ks) ++ [d], (snd ks + 1) mod 65536).

Fixpoint auth_lines (ls : list bytes) (ks : list bytes * N) : option (list bytes * N) :=
  match ls with
  | [] => Some ks
  | l :: ls' => match auth_line l with
                | LSkip => auth_lines ls' ks
                | LBad => None
                | LKey d => auth_lines ls' (add_key ks d)
                end
  end.

(** session_server_ssh.c 366-436 [nc_server_ssh_read_authorized_keys_file] on the content of the file
    ([None]: it cannot be opened).  Result: the first [pubkey_count] elements; [None] on error (the caller,
    lines 447-469 and 1256-1259, then uses no key). *)
Definition read_authorized_keys (file : option bytes) : option (list bytes) :=
  match file with
  | None => None
  | Some f => match auth_lines (getlines [] f) ([], 0) with
              | Some (ks, n) => Some (firstn (N.to_nat n) ks)
              | None => None
              end
  end.

(** session_server_ssh.c 446-469 [nc_server_ssh_get_system_keys]; [fs] is the file system. *)
Definition get_system_keys (alloc : N -> bool) (getpw : option (bytes * N)) (fmt : option bytes)
    (fs : bytes -> option bytes) (user : bytes) : pres (list bytes) :=
  match system_keys_path alloc getpw fmt user with
  | POk p => match read_authorized_keys (fs p) with Some ks => POk ks | None => PErr end
  | PErr => PErr
  | PUb => PUb
  end.
End Authkeys.

(* ------------------------------------------------------------------ *)
(** ** Passwords *)

(** session_server_ssh.c 625-656 [nc_server_ssh_compare_password]: true = 0 = match.  [received = None]: libssh
    gives no password (NULL); [crypt] is crypt_r(). *)
Definition compare_password (crypt : bytes -> bytes -> option bytes) (stored : bytes) (received : option bytes) : bool :=
  match received with
  | None => false
  | Some rcv =>
      match stored with
      | [] => match rcv with [] => true | _ => false end
      | _ =>
          if strncmp0 stored (bs "$0$") 3 then streq (skipn 3 stored) rcv
          else match crypt rcv stored with
               | None => false
               | Some h => streq h stored
               end
      end
  end.

(** Entries of /etc/passwd and /etc/shadow. *)
Record shadow := mkSh { sh_pwdp : option bytes; sh_expire : Z }.
Record passwd := mkPw { pw_passwd : bytes; pw_shadow : option shadow }.

(** session_server_ssh.c 560-614 [nc_server_ssh_get_pwd_hash]; [today] is time(NULL) / 86400.
    Buffer enlarging (482-552) is in PwBuf.v: here the entries are found or not. *)
Definition get_pwd_hash (today : Z) (pw : option passwd) : option bytes :=
  match pw with
  | None => None
  | Some p =>
      let h := if streq (pw_passwd p) (bs "x") then
                 match pw_shadow p with
                 | None => None
                 | Some s => if ((-1 <? sh_expire s) && (sh_expire s <=? today))%Z then None else sh_pwdp s
                 end
               else Some (pw_passwd p) in
      match h with
      | None => None
      | Some h => if streq h (bs "*") || streq h (bs "!") then None
                  else if streq h (bs "*NP*") then None
                  else Some h
      end
  end.

(* ------------------------------------------------------------------ *)
(** ** Public keys *)

Inductive keytype := KRsa | KP256 | KP384 | KP521 | KEd25519.

(** Reading memory: [strncmp(buf, lit, n)] where [buf] is the rest of an allocated block (not NUL
    terminated).  [None]: a byte after the block is read. *)
Fixpoint strncmp_buf (buf lit : bytes) (n : nat) {struct n} : option bool :=
  match n with
  | O => Some true
  | S n' => match buf with
            | [] => None
            | x :: buf' => match lit with
                           | [] => Some (Ascii.eqb x NUL)
                           | y :: lit' => if Ascii.eqb x y then strncmp_buf buf' lit' n' else Some false
                           end
            end
  end.

(** ntohl() of the first four bytes. *)
Definition be32 (b : bytes) : N :=
  fold_left (fun a c => a * 256 + N_of_ascii c) (firstn 4 b) 0.

Section Pubkeys.
Variable key : Type.
(** EVP_DecodeBlock() as called by [nc_base64_decode_wrap] (session_openssl.c 864-880); [None] = -1. *)
Variable decode : bytes -> option bytes.
(** [ssh_pki_import_pubkey_base64]; [None]: not SSH_OK. *)
Variable import : bytes -> keytype -> option key.
(** [ssh_key_cmp() == 0] *)
Variable keycmp : key -> key -> bool.

(** session_server_ssh.c 1093-1116: the chain of comparisons, in order.  Inner [None]: not recognised or DSA;
    outer [None]: read past the buffer.  [strncmp] compares at most the length of the longest literal. *)
Fixpoint find_type (buf : bytes) (n : nat) (l : list (bytes * option keytype)) : option (option keytype) :=
  match l with
  | [] => Some None
  | (name, t) :: l' => match strncmp_buf buf name n with
                       | None => None
                       | Some true => Some t
                       | Some false => find_type buf n l'
                       end
  end.
Definition known_types : list (bytes * option keytype) :=
  [(bs "ssh-dss", None); (bs "ssh-rsa", Some KRsa); (bs "ecdsa-sha2-nistp256", Some KP256);
   (bs "ecdsa-sha2-nistp384", Some KP384); (bs "ecdsa-sha2-nistp521", Some KP521);
   (bs "ssh-ed25519", Some KEd25519)].

(** session_server_ssh.c 1075-1124 [nc_server_ssh_create_ssh_pubkey] and 1052-1066
    [nc_server_ssh_get_pubkey_type].  The length is capped at 20 for the comparison, one more than the
    longest name: strncmp() never looks further. *)
Definition create_ssh_pubkey (b64 : bytes) : pres key :=
  match decode b64 with
  | None => PErr
  | Some bin =>
      if lenN bin <? 4 then PUb
      else match find_type (skipn 4 bin) (N.to_nat (N.min 20 (be32 bin))) known_types with
           | None => PUb
           | Some None => PErr
           | Some (Some t) => match import b64 t with Some k => POk k | None => PErr end
           end
  end.

(** session_server_ssh.c 1132-1161 [nc_server_ssh_auth_pubkey_compare_key]: [POk true] = match. *)
Fixpoint compare_key (k : key) (keys : list bytes) : pres bool :=
  match keys with
  | [] => POk false
  | b :: keys' => match create_ssh_pubkey b with
                  | PUb => PUb
                  | PErr => compare_key k keys'
                  | POk k' => if keycmp k k' then POk true else compare_key k keys'
                  end
  end.
End Pubkeys.
