(** C289: the callbacks of a client. *)
From Coq Require Import List NArith.
From Verif Require Import ClientCb.
Import ListNotations.
Local Open Scope N_scope.

(** ** Specification *)

Inductive kind := Password | Interactive | Passphrase.

(** What a call sets: for Call Home or not, which callback, to what. *)
Definition sets (e : call) : option (bool * kind * (option N * N)) :=
  match e with
  | nc_client_ssh_set_auth_password_clb f p => Some (false, Password, (f, p))
  | nc_client_ssh_ch_set_auth_password_clb f p => Some (true, Password, (f, p))
  | nc_client_ssh_set_auth_interactive_clb f p => Some (false, Interactive, (f, p))
  | nc_client_ssh_ch_set_auth_interactive_clb f p => Some (true, Interactive, (f, p))
  | nc_client_ssh_set_auth_privkey_passphrase_clb f p => Some (false, Passphrase, (f, p))
  | nc_client_ssh_ch_set_auth_privkey_passphrase_clb f p => Some (true, Passphrase, (f, p))
  | _ => None
  end.

(** [v] is the last value given to callback [k] of [ch]; without any it is NULL with NULL. *)
Inductive last_set (ch : bool) (k : kind) : list call -> option N * N -> Prop :=
| LNone l : (forall e v, In e l -> sets e <> Some (ch, k, v)) -> last_set ch k l (None, 0)
| LSome l e l' v : sets e = Some (ch, k, v) -> (forall x w, In x l' -> sets x <> Some (ch, k, w)) -> last_set ch k (l ++ e :: l') v.

Definition sets_mode (e : call) : option (bool * N) :=
  match e with
  | nc_client_ssh_set_knownhosts_mode m => Some (false, m)
  | nc_client_ssh_ch_set_knownhosts_mode m => Some (true, m)
  | _ => None
  end.
Inductive last_mode (ch : bool) : list call -> N -> Prop :=
| MNone l : (forall e m, In e l -> sets_mode e <> Some (ch, m)) -> last_mode ch l 0
| MSome l e l' m : sets_mode e = Some (ch, m) -> (forall x n, In x l' -> sets_mode x <> Some (ch, n)) -> last_mode ch (l ++ e :: l') m.

(** The public getter of a callback. *)
Definition getter (ch : bool) (k : kind) : ctx -> option N * N :=
  match ch, k with
  | false, Password => nc_client_ssh_get_auth_password_clb
  | true, Password => nc_client_ssh_ch_get_auth_password_clb
  | false, Interactive => nc_client_ssh_get_auth_interactive_clb
  | true, Interactive => nc_client_ssh_ch_get_auth_interactive_clb
  | false, Passphrase => nc_client_ssh_get_auth_privkey_passphrase_clb
  | true, Passphrase => nc_client_ssh_ch_get_auth_privkey_passphrase_clb
  end.
(** What a connection calls. *)
Definition asks (ch : bool) (k : kind) (c : ctx) : fn * N :=
  match k with Password => asks_password ch c | Interactive => asks_interactive ch c | Passphrase => asks_passphrase ch c end.
Definition own (k : kind) : fn := match k with Password => LibPassword | Interactive => LibInteractive | Passphrase => LibPassphrase end.
(** The function of the program with its pointer, or the one of the library for this purpose. *)
Definition to_call (k : kind) (v : option N * N) : fn * N := match v with (Some n, p) => (User n, p) | (None, _) => (own k, 0) end.
(** NULL resets the pointer too. *)
Definition told (v : option N * N) : option N * N := match v with (None, _) => (None, 0) | v => v end.

(** ** C289 *)

Lemma step_asks ch k c e : asks ch k (do c e) =
  match sets e with
  | Some (ch', k', v) => match Bool.eqb ch ch', k, k' with
                         | true, Password, Password | true, Interactive, Interactive | true, Passphrase, Passphrase => to_call k v
                         | _, _, _ => asks ch k c
                         end
  | None => asks ch k c
  end.
Proof. destruct e as [m|m|f p|f p|f p|f p|f p|f p], ch, k; try reflexivity; destruct f; reflexivity. Qed.

Lemma step_own ch k c e v : sets e = Some (ch, k, v) -> asks ch k (do c e) = to_call k v.
Proof. intros H. rewrite step_asks, H. destruct ch, k; reflexivity. Qed.

Lemma step_other ch k c e : (forall v, sets e <> Some (ch, k, v)) -> asks ch k (do c e) = asks ch k c.
Proof.
  intros H. rewrite step_asks. destruct (sets e) as [[[ch' k'] v]|]; [|reflexivity]. specialize (H v).
  destruct ch, ch', k, k'; try reflexivity; congruence.
Qed.

Lemma keep ch k l : forall c, (forall e v, In e l -> sets e <> Some (ch, k, v)) -> asks ch k (fold_left do l c) = asks ch k c.
Proof.
  induction l as [|e l IH]; intros c H; [reflexivity|]. cbn [fold_left]. rewrite IH by (intros x v I; apply H; right; exact I).
  apply step_other. intros v. apply H. left; reflexivity.
Qed.

(** A connection calls the callback set last for its purpose, with its pointer. *)
Theorem c289_called ch k l v : last_set ch k l v -> asks ch k (history l) = to_call k v.
Proof.
  intros [l0 H|l0 e l' w E H]; unfold history.
  - rewrite keep by exact H. destruct ch, k; reflexivity.
  - rewrite fold_left_app. cbn [fold_left]. rewrite keep by exact H. apply step_own. exact E.
Qed.

Lemma getter_asks ch k c n p : asks ch k c = (User n, p) -> getter ch k c = (Some n, p).
Proof. intros H. destruct c as [[] []], ch, k; cbn in H; injection H as -> ->; reflexivity. Qed.
Lemma getter_own ch k c p : asks ch k c = (own k, p) -> getter ch k c = (None, p).
Proof. intros H. destruct c as [[] []], ch, k; cbn in H; injection H as -> ->; reflexivity. Qed.

(** The getter returns it. *)
Theorem c289_got ch k l v : last_set ch k l v -> getter ch k (history l) = told v.
Proof.
  intros H. pose proof (c289_called ch k l v H) as C. destruct v as [[n|] p]; cbn [to_call told] in *.
  - apply getter_asks. exact C.
  - apply getter_own. exact C.
Qed.

(** Every history has such a value, so that nothing is left out. *)
Theorem c289_total ch k l : exists v, last_set ch k l v.
Proof.
  assert (D : forall e, (exists v, sets e = Some (ch, k, v)) \/ forall v, sets e <> Some (ch, k, v)).
  { intros e. destruct (sets e) as [[[ch' k'] v]|] eqn:E; [|right; intros; discriminate].
    destruct ch, ch', k, k'; try (left; exists v; reflexivity); right; intros w F; discriminate F. }
  induction l as [|e l IH] using rev_ind.
  - exists (None, 0). apply LNone. intros e v [].
  - destruct (D e) as [[v E]|N].
    + exists v. apply LSome with (l' := []); [exact E|intros x w []].
    + destruct IH as [v IH]. exists v. destruct IH as [l0 H|l0 x l' w E H].
      * apply LNone. intros y u I. apply in_app_or in I as [I|[<-|[]]]; [apply H; exact I|apply N].
      * rewrite <- app_assoc. cbn [app]. apply LSome; [exact E|].
        intros y u I. apply in_app_or in I as [I|[<-|[]]]; [apply H; exact I|apply N].
Qed.

Lemma mode_step ch c e : checks ch (do c e) = match sets_mode e with Some (ch', m) => if Bool.eqb ch ch' then m else checks ch c | None => checks ch c end.
Proof. destruct e as [m|m|f p|f p|f p|f p|f p|f p], ch; try reflexivity; destruct f; reflexivity. Qed.

(** The check of the host key is done in the mode set last. *)
Theorem c289_mode ch l m : last_mode ch l m -> checks ch (history l) = m.
Proof.
  assert (K : forall l c, (forall e m, In e l -> sets_mode e <> Some (ch, m)) -> checks ch (fold_left do l c) = checks ch c).
  { induction l0 as [|e l0 IH]; intros c H; [reflexivity|]. cbn [fold_left]. rewrite IH by (intros x v I; apply H; right; exact I).
    rewrite mode_step. pose proof (fun m => H e m (or_introl eq_refl)) as N. destruct (sets_mode e) as [[ch' m']|]; [|reflexivity].
    specialize (N m'). destruct ch, ch'; try reflexivity; congruence. }
  intros [l0 H|l0 e l' n E H]; unfold history.
  - rewrite K by exact H. destruct ch; reflexivity.
  - rewrite fold_left_app. cbn [fold_left]. rewrite K by exact H. rewrite mode_step, E. destruct ch; reflexivity.
Qed.

(** A history that sets, overrides and resets. *)
Definition hist : list call :=
  [nc_client_ssh_set_auth_password_clb (Some 7) 70; nc_client_ssh_ch_set_auth_password_clb (Some 8) 80;
   nc_client_ssh_set_auth_interactive_clb (Some 9) 90; nc_client_ssh_set_auth_password_clb None 5; nc_client_ssh_ch_set_knownhosts_mode 3].
Example c289_example :
  last_set false Password hist (None, 5) /\ last_set true Password hist (Some 8, 80) /\ last_set true Interactive hist (None, 0) /\
  getter false Password (history hist) = (None, 0) /\ asks true Password (history hist) = (User 8, 80) /\
  last_mode true hist 3 /\ checks false (history hist) = 0.
Proof.
  split; [apply (LSome _ _ (firstn 3 hist) _ (skipn 4 hist)); [reflexivity|intros x w [<-|[]]; discriminate]|].
  split; [apply (LSome _ _ (firstn 1 hist) _ (skipn 2 hist)); [reflexivity|intros x w [<-|[<-|[<-|[]]]]; discriminate]|].
  split; [apply LNone; intros e v [<-|[<-|[<-|[<-|[<-|[]]]]]]; discriminate|].
  split; [reflexivity|]. split; [reflexivity|]. split; [|reflexivity].
  apply (MSome _ (firstn 4 hist) _ []); [reflexivity|intros x n []].
Qed.

Print Assumptions c289_called.
Print Assumptions c289_got.
Print Assumptions c289_total.
Print Assumptions c289_mode.
