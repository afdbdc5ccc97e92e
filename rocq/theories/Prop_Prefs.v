(** C249: preferences of authentication methods as the application sets them and as a connection uses them; the model is ClientSsh. *)
From Coq Require Import NArith ZArith Bool Lia List.
From Verif Require Import Bytes ClientSsh Prop_ClientSsh.
Import ListNotations.
Local Open Scope Z_scope.

(* ------------------------------------------------------------------ *)
(** ** Specification *)

(** The calls nc_client_ssh_set_auth_pref(method, value) in their order, starting from some preferences. *)
Definition after (p : meth -> Z) (calls : list (meth * Z)) : meth -> Z := fold_left (fun p c => set_pref p (fst c) (snd c)) calls p.
(** The value of the last call for a method. *)
Fixpoint last_set (m : meth) (calls : list (meth * Z)) : option Z :=
  match calls with
  | [] => None
  | (x, v) :: r => match last_set m r with Some y => Some y | None => if meth_eqb x m then Some v else None end
  end.

(* ------------------------------------------------------------------ *)

Lemma meth_eqb_eq x m : meth_eqb x m = true <-> x = m.
Proof. destruct x, m; cbn; split; congruence. Qed.

(** What nc_client_ssh_get_auth_pref() returns after the calls: a value that is not negative as it was set, -1 for a negative one, what it was before without a call. *)
Theorem c249_got p calls m : after p calls m = match last_set m calls with None => p m | Some v => if 0 <=? v then v else -1 end.
Proof.
  revert p. induction calls as [|[x v] calls IH]; intros p; [reflexivity|]. unfold after. cbn [fold_left fst snd last_set]. fold (after (set_pref p x v) calls).
  rewrite IH. destruct (last_set m calls) as [y|]; [reflexivity|]. unfold set_pref.
  destruct (meth_eqb x m) eqn:E.
  - apply meth_eqb_eq in E. subst x. replace (meth_eqb m m) with true by (destruct m; reflexivity).
    destruct (v <? 0) eqn:A, (0 <=? v) eqn:B; auto; [apply Z.ltb_lt in A; apply Z.leb_le in B; lia|apply Z.ltb_ge in A; apply Z.leb_gt in B; lia].
  - destruct (meth_eqb m x) eqn:F; [|reflexivity]. apply meth_eqb_eq in F. subst x. destruct m; discriminate E.
Qed.
(** A method disabled by the last call is never tried, whatever the server offers. *)
Theorem c249_disabled p calls m v rm : last_set m calls = Some v -> v < 0 -> ~ In m (tried (snd (connect (after p calls) rm))).
Proof.
  intros L N I. destruct (c86_order (after p calls) rm) as (_ & H & _). destruct (H m I) as [_ G]. rewrite c249_got, L in G.
  destruct (0 <=? v) eqn:B; [apply Z.leb_le in B; lia|lia].
Qed.
(** Of two methods the server offers and the last calls enabled, the one with the lower value is tried only after the other. *)
Theorem c249_order p calls m x vm vx rm pre post : last_set m calls = Some vm -> last_set x calls = Some vx -> 0 <= vm < vx -> r_offers rm x = true ->
  tried (snd (connect (after p calls) rm)) = pre ++ m :: post -> In x pre.
Proof.
  intros Lm Lx V O E. destruct (c86_order (after p calls) rm) as (_ & _ & H). apply (H pre m post x E O). rewrite !c249_got, Lm, Lx.
  rewrite (proj2 (Z.leb_le 0 vm)), (proj2 (Z.leb_le 0 vx)); lia.
Qed.
(** A method enabled with a value above 0 is tried if the server offers it, answers, and lets no other method in. *)
Theorem c249_enabled p calls m v rm : last_set m calls = Some v -> 0 < v -> r_conn rm = COk -> accepts (r_mode rm) (r_host rm) -> answered rm -> r_offers rm m = true ->
  fst (connect (after p calls) rm) = Ret 1 \/ In m (tried (snd (connect (after p calls) rm))).
Proof.
  intros L V C A W O. destruct (c87_all_partial (after p calls) rm C A W) as [H|[_ H]]; [now left|right]. apply H; [exact O|]. left.
  rewrite c249_got, L, (proj2 (Z.leb_le 0 v)); lia.
Qed.

Example c249_case :
  let calls := [(Password, 5); (Interactive, 0); (Password, -7); (PublicKey, 2); (Interactive, 9)] in
  let rm := {| r_conn := COk; r_mode := Skip; r_host := anyhost; r_none := ADenied; r_offers := offered [Password; Interactive; PublicKey];
     r_password := Some ASuccess; r_kbd := [KInfo [(true, true)]; KAns APartial]; r_keys := [] |} in
  last_set Password calls = Some (-7) /\ last_set Interactive calls = Some 9 /\ map (after prefs calls) [Password; Interactive; PublicKey] = [-1; 9; 2]
  /\ after prefs [(Password, 0)] Password = 0 /\ tried (snd (connect (after prefs calls) rm)) = [Interactive; PublicKey].
Proof. vm_compute. intuition. Qed.

Print Assumptions c249_got.
Print Assumptions c249_disabled.
Print Assumptions c249_order.
Print Assumptions c249_enabled.
