(** Model of the memory of what a client learns of the modules of the server from its capabilities: src/session_client.c
    787-814 (free_module_info), 1030-1098 (build_module_info_cpblts), src/io.c 1084-1095 (nc_realloc). *)
From Coq Require Import Arith Bool List.
Import ListNotations.

(** Blocks in use, the number of the next one, and whether a block was freed that was not in use. *)
Record mem := { m_live : list nat; m_next : nat; m_bad : bool }.

(** malloc(), calloc(), strndup(); [al]: whether the call that would give this block succeeds. *)
Definition malloc (al : nat -> bool) (m : mem) : mem * option nat :=
  if al (m_next m) then ({| m_live := m_next m :: m_live m; m_next := S (m_next m); m_bad := m_bad m |}, Some (m_next m))
  else ({| m_live := m_live m; m_next := S (m_next m); m_bad := m_bad m |}, None).

(** free(). *)
Definition free (p : option nat) (m : mem) : mem :=
  match p with
  | None => m
  | Some b => {| m_live := filter (fun c => negb (Nat.eqb c b)) (m_live m); m_next := m_next m;
                 m_bad := m_bad m || negb (existsb (Nat.eqb b) (m_live m)) |}
  end.

(** io.c 1084-1095 [nc_realloc] with a size; blocks are taken to move. *)
Definition nc_realloc (al : nat -> bool) (p : option nat) (m : mem) : mem * option nat :=
  match malloc al m with
  | (m, Some c) => (free p m, Some c)
  | (m, None) => (free p m, None)
  end.

(** What counts of a capability: whether it has a module and then whether it has a revision and the number of its features
    less one, [None] without "features=". *)
Definition cap := option (bool * option nat).

(** session_client.c 334-344 [struct module_info] without the submodules, which are NULL here: the blocks of the name,
    of the revision, and of the array of features with those of the features.  The end of the array, NULL, is not listed. *)
Record entry := { e_name : option nat; e_rev : option nat; e_feats : option (nat * list (option nat)) }.

(** The array itself and its entries; those after the listed ones are zero, as calloc() left them. *)
Record info := { i_array : nat; i_entries : list entry }.

(** [NullDeref]: an array that could not be enlarged is written to (1081, 1090: no check). *)
Inductive res (A : Type) := Ret (a : A) | NoMem | NullDeref.
Arguments Ret {A}. Arguments NoMem {A}. Arguments NullDeref {A}.

(** Lines 1078-1093: [n] more features, one after another. *)
Fixpoint add_feats (al : nat -> bool) (n : nat) (arr : option nat) (fs : list (option nat)) (m : mem)
  : mem * option (option (nat * list (option nat))) :=
  match n with
  | O => (m, Some (match arr with Some a => Some (a, fs) | None => None end))
  | S n =>
      match nc_realloc al arr m with
      | (m, None) => (m, None)
      | (m, Some a) => let (m, f) := malloc al m in add_feats al n (Some a) (fs ++ [f]) m
      end
  end.

(** Lines 1043-1095: one capability with a module. *)
Definition build_one (al : nat -> bool) (rev : bool) (feats : option nat) (m : mem) : mem * option entry :=
  let (m, n) := malloc al m in                                                    (* 1053 *)
  let (m, r) := if rev then malloc al m else (m, None) in                         (* 1056-1064 *)
  match feats with
  | None => (m, Some {| e_name := n; e_rev := r; e_feats := None |})
  | Some k =>
      match add_feats al (S k) None [] m with
      | (m, Some f) => (m, Some {| e_name := n; e_rev := r; e_feats := f |})
      | (m, None) => (m, None)
      end
  end.

Fixpoint build_all (al : nat -> bool) (cs : list cap) (m : mem) : mem * option (list entry) :=
  match cs with
  | [] => (m, Some [])
  | None :: cs => build_all al cs m
  | Some (rev, feats) :: cs =>
      match build_one al rev feats m with
      | (m, None) => (m, None)
      | (m, Some e) =>
          match build_all al cs m with
          | (m, Some l) => (m, Some (e :: l))
          | (m, None) => (m, None)
          end
      end
  end.

(** Lines 1030-1098 [build_module_info_cpblts]. *)
Definition build_module_info_cpblts (al : nat -> bool) (cs : list cap) (m : mem) : mem * res info :=
  match malloc al m with
  | (m, None) => (m, NoMem)
  | (m, Some a) =>
      match build_all al cs m with
      | (m, Some l) => (m, Ret {| i_array := a; i_entries := l |})
      | (m, None) => (m, NullDeref)
      end
  end.

(** Lines 800-802: up to the first NULL. *)
Fixpoint free_feats (fs : list (option nat)) (m : mem) : mem :=
  match fs with
  | Some f :: fs => free_feats fs (free (Some f) m)
  | _ => m
  end.

(** Lines 796-812: up to the first entry without a name. *)
Fixpoint free_entries (l : list entry) (m : mem) : mem :=
  match l with
  | [] => m
  | e :: l =>
      match e_name e with
      | None => m
      | Some n =>
          let m := free (e_rev e) (free (Some n) m) in
          let m := match e_feats e with
                   | Some (a, fs) => free (Some a) (free_feats fs m)
                   | None => m
                   end in
          free_entries l m
      end
  end.

(** Lines 787-814 [free_module_info]. *)
Definition free_module_info (i : option info) (m : mem) : mem :=
  match i with
  | None => m
  | Some i => free (Some (i_array i)) (free_entries (i_entries i) m)
  end.
