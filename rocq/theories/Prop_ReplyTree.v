(** C303: a reply is written as a whole and kept. *)
From Coq Require Import Ascii String Bool Lia List Permutation.
From Verif Require Import Bytes ReplyTree.
Import ListNotations.
Local Open Scope list_scope.

(* ------------------------------------------------------------------ *)
(** ** Specification *)

(** lyd_insert_child() puts the node at the end; or anywhere, which is all that is documented. *)
Definition appends {A} (ins : list A -> A -> list A) : Prop := forall l x, ins l x = l ++ [x].
Definition inserts {A} (ins : list A -> A -> list A) : Prop := forall l x, Permutation (x :: l) (ins l x).

(** The nodes of a reply. *)
Definition nodes {A} (r : reply A) : list A := match r with RData l | RErr l => l | _ => [] end.

(** Full statement: NULL is not read, nothing of the reply is freed or changed, and nothing is lost. *)
Definition c303_full : Prop := forall (A attrs : Type) (env op : list A -> A -> list A) base w (rpc : option (envelope attrs)) r, appends env -> appends op ->
  exists d, write_reply env op base w rpc r = Done d /\ w_reply d = r /\ w_freed d = [] /\ w_lost d = false.

(** What has to be printed: the content in the envelope of the RPC. *)
Definition right_envelope {A attrs} (base : bytes) (rpc : option (envelope attrs)) (p : printed A attrs) : Prop :=
  match rpc with
  | Some e => p_prefix p = e_prefix e /\ p_ns p = e_ns e /\ p_attr p = Some (e_attr e)
  | None => p_prefix p = None /\ p_ns p = base /\ p_attr p = None
  end.

(* ------------------------------------------------------------------ *)
(** ** Lemmas *)

Lemma fold_appends {A} (ins : list A -> A -> list A) : appends ins -> forall l acc, fold_left ins l acc = acc ++ l.
Proof. intros H. induction l as [|x l IH]; intros acc; cbn; [now rewrite app_nil_r|]. rewrite IH, H, <- app_assoc. reflexivity. Qed.
Lemma fold_inserts {A} (ins : list A -> A -> list A) : inserts ins -> forall l acc, Permutation (acc ++ l) (fold_left ins l acc).
Proof.
  intros H. induction l as [|x l IH]; intros acc; cbn; [now rewrite app_nil_r|]. rewrite <- IH. rewrite <- (H acc x). cbn. symmetry. apply Permutation_middle.
Qed.
Lemma appends_inserts {A} (ins : list A -> A -> list A) : appends ins -> inserts ins.
Proof. intros H l x. rewrite H. apply Permutation_cons_append. Qed.

(* ------------------------------------------------------------------ *)
(** ** C303 *)

Section S.
Context {A attrs : Type} (env op : list A -> A -> list A) (base : bytes).

(** All but replies with several errors, OK without the envelope of an RPC, and types that do not exist. *)
Theorem c303_partial w (rpc : option (envelope attrs)) r : appends env -> appends op ->
  match r with ROk => rpc <> None | RData _ => True | RErr l => List.length l <= 1 | RUnknown => makes_env w = false end ->
  exists d, write_reply env op base w rpc r = Done d /\ w_reply d = r /\ w_freed d = [] /\ w_lost d = false.
Proof.
  intros He Ho H. unfold write_reply. destruct (makes_env w); cbn [negb]; [|eexists; repeat split].
  destruct r as [|l|l|].
  - destruct rpc as [e|]; [|congruence]. destruct (makes_ok w); eexists; repeat split.
  - eexists. repeat split. cbn [w_reply]. now rewrite !fold_appends.
  - eexists. repeat split; cbn [w_reply w_freed]; unfold ins_all; rewrite fold_appends by exact He; cbn [app];
      (destruct l as [|x [|y l]]; [reflexivity|reflexivity|cbn in H; lia]).
  - discriminate.
Qed.

(** Wherever nodes are inserted, all of the reply is printed and none is lost or there twice. *)
Theorem c303_nodes w (rpc : option (envelope attrs)) r d : inserts env -> inserts op -> write_reply env op base w rpc r = Done d ->
  Permutation (nodes r) (nodes (w_reply d) ++ w_freed d) /\
  (forall p, w_tree d = Some p -> right_envelope base rpc p /\
     match r with
     | ROk => exists e, rpc = Some e /\ p_body p = BOk (e_prefix e) (e_ns e)
     | _ => exists l, p_body p = BNodes l /\ Permutation (nodes r) l
     end) /\
  (w_ok d = true -> w_tree d <> None /\ prints w = true).
Proof.
  intros He Ho. unfold write_reply. assert (F : forall b, fails r b = Done d -> Permutation (nodes r) (nodes (w_reply d) ++ w_freed d) /\ w_tree d = None /\ w_ok d = false).
  { intros b [= <-]. cbn. rewrite app_nil_r. auto. }
  destruct (makes_env w); cbn [negb].
  2: { intros E. destruct (F _ E) as (P & T & O). rewrite T, O. split; [exact P|]. split; [intros p Q; discriminate Q|discriminate]. }
  destruct r as [|l|l|].
  - destruct rpc as [e|]; [|discriminate]. destruct (makes_ok w); cbn [negb].
    + intros [= <-]. cbn. split; [constructor|]. split; [intros p [= <-]; cbn; split; [auto|eauto]|intros P; split; [discriminate|exact P]].
    + intros E. destruct (F _ E) as (P & T & O). rewrite T, O. split; [exact P|]. split; [intros p Q; discriminate Q|discriminate].
  - intros [= <-]. cbn [w_reply w_freed w_tree w_ok nodes]. pose proof (fold_inserts env He l []) as P1. pose proof (fold_inserts op Ho (fold_left env l []) []) as P2.
    cbn [app] in P1, P2. split; [|split].
    + rewrite app_nil_r. etransitivity; [exact P1|exact P2].
    + intros p [= <-]. split; [unfold right_envelope; destruct rpc; cbn; auto|cbn; eauto].
    + intros Q. split; [discriminate|exact Q].
  - intros [= <-]. cbn [w_reply w_freed w_tree w_ok nodes]. unfold ins_all. pose proof (fold_inserts env He l []) as P1. cbn [app] in P1. split; [|split].
    + change (Permutation l (firstn 1 (fold_left env l []) ++ skipn 1 (fold_left env l []))). now rewrite firstn_skipn.
    + intros p [= <-]. split; [unfold right_envelope; destruct rpc; cbn; auto|cbn; eauto].
    + intros Q. split; [discriminate|exact Q].
  - intros E. destruct (F _ E) as (P & T & O). rewrite T, O. split; [exact P|]. split; [intros p Q; discriminate Q|discriminate].
Qed.

(** In the order of the reply, if nodes are put at the end. *)
Theorem c303_order w (rpc : option (envelope attrs)) r d p : appends env -> write_reply env op base w rpc r = Done d -> w_tree d = Some p -> r <> ROk -> p_body p = BNodes (nodes r).
Proof.
  intros He. unfold write_reply. destruct (makes_env w); cbn [negb]; [|intros [= <-]; discriminate].
  destruct r as [|l|l|]; [congruence| | |intros [= <-]; discriminate]; intros [= <-] [= <-] _; cbn; unfold ins_all; now rewrite fold_appends.
Qed.

(** Of several errors all but the first are freed when they have been written. *)
Theorem c303_errors w (rpc : option (envelope attrs)) x l : appends env -> makes_env w = true ->
  exists d, write_reply env op base w rpc (RErr (x :: l)) = Done d /\ w_reply d = RErr [x] /\ w_freed d = l.
Proof. intros He M. unfold write_reply, ins_all. rewrite M. cbn [negb]. eexists. repeat split; cbn [w_reply w_freed]; rewrite fold_appends by exact He; reflexivity. Qed.

(** NULL is read exactly for OK without the envelope of an RPC. *)
Theorem c303_null w (rpc : option (envelope attrs)) r : write_reply env op base w rpc r = Null <-> r = ROk /\ rpc = None /\ makes_env w = true.
Proof.
  unfold write_reply. destruct (makes_env w); cbn [negb]; [|split; [discriminate|intros (_ & _ & [=])]].
  destruct r as [|l|l|]; try (split; [discriminate|intros ([=] & _)]). destruct rpc as [e|]; [|split; auto]. destruct (makes_ok w); (split; [discriminate|intros (_ & [=] & _)]).
Qed.
(** The envelope is lost exactly for replies of no known type. *)
Theorem c303_lost w (rpc : option (envelope attrs)) r d : write_reply env op base w rpc r = Done d -> w_lost d = true <-> r = RUnknown /\ makes_env w = true.
Proof.
  unfold write_reply, fails. destruct (makes_env w); cbn [negb]; [|intros [= <-]; cbn; intuition discriminate].
  destruct r; [destruct rpc; [destruct (makes_ok w); cbn [negb]|]| | |]; intros [= <-]; cbn; intuition discriminate.
Qed.
End S.

Theorem c303_refuted : ~ c303_full.
Proof.
  intros F. destruct (F bool unit (fun l x => l ++ [x]) (fun l x => l ++ [x]) [] {| makes_env := true; makes_ok := true; prints := true |} None (RErr [true; false])) as (d & E & R & _);
    [intros l x; reflexivity|intros l x; reflexivity|]. injection E as <-. discriminate R.
Qed.

(** A reply with three nodes; one with two errors. *)
Example c303_case :
  let w := {| makes_env := true; makes_ok := true; prints := true |} in
  let e := {| e_prefix := Some (bs "nc"); e_ns := bs "ns"; e_attr := bs "id" |} in
  let a (l : list bytes) (x : bytes) := l ++ [x] in
  write_reply a a (bs "base") w (Some e) (RData [bs "x"; bs "y"; bs "z"]) =
    Done {| w_ok := true; w_tree := Some {| p_prefix := Some (bs "nc"); p_ns := bs "ns"; p_attr := Some (bs "id"); p_body := BNodes [bs "x"; bs "y"; bs "z"] |};
            w_reply := RData [bs "x"; bs "y"; bs "z"]; w_freed := []; w_lost := false |} /\
  write_reply a a (bs "base") w (Some e) (RErr [bs "x"; bs "y"]) =
    Done {| w_ok := true; w_tree := Some {| p_prefix := Some (bs "nc"); p_ns := bs "ns"; p_attr := Some (bs "id"); p_body := BNodes [bs "x"; bs "y"] |};
            w_reply := RErr [bs "x"]; w_freed := [bs "y"]; w_lost := false |}.
Proof. vm_compute. repeat split; reflexivity. Qed.

Print Assumptions c303_partial.
Print Assumptions c303_nodes.
Print Assumptions c303_order.
Print Assumptions c303_errors.
Print Assumptions c303_null.
Print Assumptions c303_lost.
Print Assumptions c303_refuted.
