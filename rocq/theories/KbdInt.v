(** Keyboard-interactive authentication with PAM or the passwords of the system, and the time authentication takes:
    session_server_ssh.c 658-967, 1308-1334, 1862-1909. *)
From Coq Require Import String List Arith Bool NArith ZArith.
From Verif Require Import Bytes SshKeys.
Import ListNotations.
Local Open Scope list_scope.
Local Open Scope Z_scope.

(* ------------------------------------------------------------------ *)
(** ** Waiting for the answers *)

(** One turn of a loop that waits: whether the socket is connected, whether libssh has a message, and the clock (in
    nanoseconds) when the time is checked at the end of the turn. *)
Record turn := mkT { t_conn : bool; t_msg : bool; t_now : Z }.
(** session.c 83-95, nc_timeouttime_cur_diff(): milliseconds to the deadline (the result fits 32 bits within 24 days
    around the deadline, which is assumed). *)
Definition left_ms (deadline now : Z) : Z := Z.quot (deadline - now) 1000000.
Definition deadline (t0 secs : Z) : Z := t0 + secs * 1000000000.

(** The result of waiting: a message came, the connection was lost, time is over, or (the turns given are over) it still
    waits. *)
Inductive waited := WMsg | WLost | WTimeout | WMore.
(** session_server_ssh.c 658-698 [nc_server_ssh_kbdint_get_nanswers], the loop 672-686, begun at [t0] with the timeout
    [secs]. *)
Fixpoint wait_answers (t0 secs : Z) (ts : list turn) : waited :=
  match ts with
  | [] => WMore
  | t :: r =>
      if negb (t_conn t) then WLost
      else if t_msg t then WMsg
      else if negb (secs =? 0) && (1 <=? left_ms (deadline t0 secs) (t_now t)) then wait_answers t0 secs r
      else WTimeout
  end.

(** What the client does in one exchange: whether the request with the prompts could be sent, when waiting for the answers
    began and the turns of it, and the answers libssh has after the message ([None]: the message was not one with answers,
    ssh_userauth_kbdint_getnanswers() returns -1). *)
Record round := mkR { r_sent : bool; r_start : Z; r_turns : list turn; r_answers : option (list bytes) }.
(** 658-698; [None] is -1, or the thread still waits. *)
Definition get_answers (secs : Z) (r : round) : option (list bytes) :=
  match wait_answers (r_start r) secs (r_turns r) with WMsg => r_answers r | _ => None end.

(* ------------------------------------------------------------------ *)
(** ** The conversation function of PAM *)

(** A message of a PAM module: PAM_PROMPT_ECHO_OFF 1, PAM_PROMPT_ECHO_ON 2, PAM_ERROR_MSG 3, PAM_TEXT_INFO 4. *)
Record pmsg := mkM { m_style : Z; m_text : bytes }.
Definition PAM_SUCCESS := 0. Definition PAM_NEW_AUTHTOK_REQD := 12. Definition PAM_CONV_ERR := 19.
Definition prompt (m : pmsg) : bool := (m_style m =? 2) || (m_style m =? 1).
Definition valid_style (m : pmsg) : bool := (m_style m =? 1) || (m_style m =? 2) || (m_style m =? 4) || (m_style m =? 3).
(** What it leaves: the return code, the array of responses it allocated (entries are NULL or an answer; [None]: *resp is
    not written), and what was sent to the client (prompts with their echo). *)
Record conv_out := mkC { c_code : Z; c_resp : option (list (option bytes)); c_shown : option (list (bytes * bool)) }.

(** 729-733, 735-755: the loop over the messages; an error message stops it.  [None]: error. *)
Fixpoint count_requests (ms : list pmsg) (n : Z) : option Z :=
  match ms with
  | [] => Some n
  | m :: r => if m_style m =? 3 then None else count_requests r (if m_style m =? 4 then n - 1 else n)
  end.
(** 769-789: the prompts and, in a second loop, the echo flags. *)
Definition prompts (ms : list pmsg) : list bytes := map m_text (filter prompt ms).
Fixpoint echoes (ms : list pmsg) : list bool :=
  match ms with
  | [] => []
  | m :: r => if m_style m =? 2 then true :: echoes r else if m_style m =? 1 then false :: echoes r else echoes r
  end.
(** 711-828 [nc_pam_conv_clb]; allocation does not fail.  PAM_MAX_NUM_MSG is 32. *)
Definition conv (secs : Z) (ms : list pmsg) (r : round) : conv_out :=
  let n := Z.of_nat (length ms) in
  if (n <=? 0) || (32 <=? n) then mkC PAM_CONV_ERR None None
  else if negb (forallb valid_style ms) then mkC PAM_CONV_ERR None None
  else match count_requests ms n with
       | None => mkC PAM_CONV_ERR None None
       | Some k =>
           if k <=? 0 then mkC PAM_SUCCESS None None
           else
             let arr := repeat None (Z.to_nat k) in
             let shown := combine (prompts ms) (echoes ms) in
             if negb (r_sent r) then mkC PAM_CONV_ERR (Some arr) None
             else match get_answers secs r with
                  | None => mkC PAM_CONV_ERR (Some arr) (Some shown)
                  | Some a => if Z.of_nat (length a) =? k then mkC PAM_SUCCESS (Some (map Some a)) (Some shown)
                              else mkC PAM_CONV_ERR (Some arr) (Some shown)
                  end
       end.

(* ------------------------------------------------------------------ *)
(** ** PAM *)

(** Any PAM module stack: it returns, or calls the conversation function and goes on with its result. *)
Inductive pam := PRet (code : Z) | PConv (ms : list pmsg) (k : Z -> option (list (option bytes)) -> pam).
(** Running it with what the client does in the exchanges: the code, the rounds left, and what it did. *)
Inductive call := CStart | CAuth | CAcct | CChtok | CEnd | CTalk (ms : list pmsg) (o : conv_out).
Fixpoint exec (secs : Z) (p : pam) (rs : list round) : option (Z * list round * list call) :=
  match p with
  | PRet c => Some (c, rs, [])
  | PConv ms k =>
      match rs with
      | [] => None                                      (* the client's part is not given *)
      | r :: rs' =>
          let o := conv secs ms r in
          match exec secs (k (c_code o) (c_resp o)) rs' with
          | None => None
          | Some (c, rs2, tr) => Some (c, rs2, CTalk ms o :: tr)
          end
      end
  end.
(** PAM on the system: whether nc_server_ssh_set_pam_conf_filename() was called, what pam_start() returns and whether it gives
    a handle, and the modules for the three functions. *)
Record system := mkSys { y_conf : bool; y_start : Z; y_handle : bool; y_auth : pam; y_acct : pam; y_chtok : pam }.

(** 839-905 [nc_server_ssh_auth_kbdint_pam]: the code and the calls made, [None]: rounds are missing.  pam_end() does not
    change the result. *)
Definition fin (y : system) (c : Z) (rs : list round) (tr : list call) : option (Z * list round * list call) :=
  Some (c, rs, tr ++ (if y_handle y then [CEnd] else [])).
Definition auth_pam (secs : Z) (y : system) (rs : list round) : option (Z * list round * list call) :=
  if negb (y_conf y) then Some (1, rs, [])
  else if negb (y_start y =? PAM_SUCCESS) then fin y (y_start y) rs [CStart]
  else match exec secs (y_auth y) rs with
       | None => None
       | Some (c1, rs1, t1) =>
           let tr1 := CStart :: CAuth :: t1 in
           if negb (c1 =? PAM_SUCCESS) then fin y c1 rs1 tr1
           else match exec secs (y_acct y) rs1 with
                | None => None
                | Some (c2, rs2, t2) =>
                    let tr2 := tr1 ++ CAcct :: t2 in
                    if negb (c2 =? PAM_SUCCESS) && negb (c2 =? PAM_NEW_AUTHTOK_REQD) then fin y c2 rs2 tr2
                    else if c2 =? PAM_NEW_AUTHTOK_REQD then
                      match exec secs (y_chtok y) rs2 with
                      | None => None
                      | Some (c3, rs3, t3) => fin y c3 rs3 (tr2 ++ CChtok :: t3)
                      end
                    else fin y c2 rs2 tr2
                end
       end.

(** 918-967 [nc_server_ssh_auth_kbdint_system], without PAM: [pw] is the hash of the system for the user (SshKeys); the prompt is
    "user's password:", without echo.  Whether it returned 0, and what was sent. *)
Definition auth_system (crypt : bytes -> bytes -> option bytes) (secs : Z) (user : bytes) (pw : option bytes) (r : round)
  : bool * option (list (bytes * bool)) :=
  match pw with
  | None => (false, None)
  | Some h =>
      let shown := [(user ++ bs "'s password:", false)] in
      if negb (r_sent r) then (false, None)
      else match get_answers secs r with
           | Some [a] => (compare_password crypt h (Some a), Some shown)
           | _ => (false, Some shown)
           end
  end.

(* ------------------------------------------------------------------ *)
(** ** The time of an authentication *)

(** A message of the client in [nc_accept_ssh_session_auth]: a request decided at once, or keyboard-interactive. *)
Inductive request := Quick (ok : bool) | Kbdint (rs : list round).
Record step := mkStep { s_conn : bool; s_msg : option request; s_now : Z }.
Inductive verdict := VYes | VLost | VTimeout | VMore.
(** 1308-1334 [nc_server_ssh_auth_kbdint] for a user who may use the method, and 1862-1909: the loop, begun at [t0]. *)
Definition kbdint_ok (secs : Z) (y : system) (rs : list round) : bool :=
  match auth_pam secs y rs with Some (c, _, _) => c =? 0 | None => false end.
Fixpoint auth_loop (t0 secs : Z) (y : system) (l : list step) : verdict :=
  match l with
  | [] => VMore
  | s :: r =>
      if negb (s_conn s) then VLost
      else
        let ok := match s_msg s with None => false | Some (Quick b) => b | Some (Kbdint rs) => kbdint_ok secs y rs end in
        if ok then VYes
        else if negb (secs =? 0) && (left_ms (deadline t0 secs) (s_now s) <? 1) then VTimeout
        else auth_loop t0 secs y r
  end.
