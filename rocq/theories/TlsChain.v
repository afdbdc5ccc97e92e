(** The certificates a server built with mbedTLS copies while the chain of a client is verified: src/session_mbedtls.c
    249-265, 450-581, 701-728.  In TlsNames the chain is a list of certificates; here it is the linked list in memory. *)
From Coq Require Import NArith Bool List.
From Verif Require Import Bytes.
From Verif Require TlsNames.
Import ListNotations.

(** Memory: the structures in use, each with what was copied into it and its [next]; how many were ever allocated (the
    next address) and those returned to free(), in that order. *)
Record cell := mkCell { c_cert : TlsNames.cert; c_next : option nat }.
Record heap := mkHeap { h_live : list (nat * cell); h_made : nat; h_freed : list nat }.

Fixpoint look (l : list (nat * cell)) (a : nat) : option cell :=
  match l with
  | [] => None
  | (b, c) :: l' => if Nat.eqb a b then Some c else look l' a
  end.

Fixpoint update (l : list (nat * cell)) (a : nat) (n : option nat) : list (nat * cell) :=
  match l with
  | [] => []
  | (b, c) :: l' => if Nat.eqb a b then (b, mkCell (c_cert c) n) :: l' else (b, c) :: update l' a n
  end.

Fixpoint remove (l : list (nat * cell)) (a : nat) : list (nat * cell) :=
  match l with
  | [] => []
  | (b, c) :: l' => if Nat.eqb a b then l' else (b, c) :: remove l' a
  end.

(** What a call does: it returns, it touches memory not in use, or it does not end. *)
Inductive out (A : Type) := Done (a : A) | Wild | Endless.
Arguments Done {A} a.
Arguments Wild {A}.
Arguments Endless {A}.

(** free(): of memory not in use it is undefined. *)
Definition free (a : nat) (h : heap) : out heap :=
  match look (h_live h) a with
  | None => Wild
  | Some _ => Done (mkHeap (remove (h_live h) a) (h_made h) (h_freed h ++ [a]))
  end.

(** Whether a duplicate can be made: malloc() fails, mbedtls_x509_crt_parse_der() fails, or neither. *)
Inductive dupres := NoMemory | NoParse | Copied.

(** 249-258 [nc_tls_cert_new_wrap] and 449-465 [nc_tls_cert_dup]. *)
Definition cert_dup (r : dupres) (c : TlsNames.cert) (h : heap) : out (heap * option nat) :=
  let a := h_made h in
  let h1 := mkHeap ((a, mkCell c None) :: h_live h) (S a) (h_freed h) in
  match r with
  | NoMemory => Done (h, None)
  | NoParse => match free a h1 with Done h2 => Done (h2, None) | Wild => Wild | Endless => Endless end
  | Copied => Done (h1, Some a)
  end.

(** 487-493: [while (iter->next)], from [a]; as many steps as there are structures and one more are given. *)
Fixpoint last_cert (fuel : nat) (h : heap) (a : nat) : out nat :=
  match fuel with
  | O => Endless
  | S k => match look (h_live h) a with
           | None => Wild
           | Some c => match c_next c with None => Done a | Some b => last_cert k h b end
           end
  end.

(** 474-497 [nc_server_tls_append_cert_to_chain]: whether it returned 0 and the chain afterwards. *)
Definition append_cert (r : dupres) (c : TlsNames.cert) (chain : option nat) (h : heap) : out (heap * (bool * option nat)) :=
  match cert_dup r c h with
  | Wild => Wild
  | Endless => Endless
  | Done (h1, None) => Done (h1, (false, chain))
  | Done (h1, Some copy) =>
      match chain with
      | None => Done (h1, (true, Some copy))
      | Some first =>
          match last_cert (S (length (h_live h1))) h1 first with
          | Wild => Wild
          | Endless => Endless
          | Done l => Done (mkHeap (update (h_live h1) l (Some copy)) (h_made h1) (h_freed h1), (true, chain))
          end
      end
  end.

(** mbedtls_x509_crt_free() after its first structure: every next one is read, then freed. *)
Fixpoint free_rest (fuel : nat) (a : option nat) (h : heap) : out heap :=
  match a with
  | None => Done h
  | Some b =>
      match fuel with
      | O => Endless
      | S k => match look (h_live h) b with
               | None => Wild
               | Some c => match free b h with Done h1 => free_rest k (c_next c) h1 | Wild => Wild | Endless => Endless end
               end
      end
  end.

(** 260-265 [nc_tls_cert_destroy_wrap]: mbedtls_x509_crt_free() of the list, which leaves its first structure, and free() of it. *)
Definition cert_destroy (a : option nat) (h : heap) : out heap :=
  match a with
  | None => Done h
  | Some b =>
      match look (h_live h) b with
      | None => Wild
      | Some c => match free_rest (S (length (h_live h))) (c_next c) h with
                  | Done h1 => free b h1
                  | Wild => Wild
                  | Endless => Endless
                  end
      end
  end.

(** 700-728 [nc_tls_get_num_certs_wrap], [nc_tls_get_cert_wrap]: what is read by going through a chain. *)
Fixpoint read_chain (fuel : nat) (h : heap) (a : option nat) : out (list TlsNames.cert) :=
  match a with
  | None => Done []
  | Some b =>
      match fuel with
      | O => Endless
      | S k => match look (h_live h) b with
               | None => Wild
               | Some c => match read_chain k h (c_next c) with Done l => Done (c_cert c :: l) | Wild => Wild | Endless => Endless end
               end
      end
  end.

(** The data of the callback and the session: the chain being built, the client's certificate kept and the user name. *)
Record st := mkSt { s_heap : heap; s_chain : option nat; s_client : option nat; s_user : option bytes }.

Section Verify.
(** [nc_server_tls_verify_cert] (session_server_tls.c 581-647, TlsNames.verify_cert) given the chain read, the certificate,
    its depth, whether it is trusted and the user name. *)
Variable verify : list TlsNames.cert -> TlsNames.cert -> N -> bool -> option bytes -> TlsNames.vres * option bytes.

(** What the verification says of one certificate: the flags of mbedTLS, the depth, the certificate; then how the two
    allocations made for it end. *)
Record call := mkCall { k_ev : TlsNames.mevent; k_dup : dupres; k_client : dupres }.

(** 508-581 [nc_server_tls_verify_cb]: whether it returned 0, and the flags.  [None]: undefined within [verify]. *)
Definition verify_cb (k : call) (s : st) : out (option (st * bool * TlsNames.mflags)) :=
  let e := k_ev k in
  let c := TlsNames.me_cert e in
  let d := TlsNames.me_depth e in
  match append_cert (k_dup k) c (s_chain s) (s_heap s) with
  | Wild => Wild
  | Endless => Endless
  | Done (h1, (false, ch)) =>                                                                          (* 516-520 *)
      match cert_destroy ch h1 with
      | Wild => Wild
      | Endless => Endless
      | Done h2 => Done (Some (mkSt h2 ch (s_client s) (s_user s), false, TlsNames.me_flags e))
      end
  | Done (h1, (true, ch)) =>
      match read_chain (S (length (h_live h1))) h1 ch with
      | Wild => Wild
      | Endless => Endless
      | Done l =>
          let ask t := verify l c d t (s_user s) in
          let '(r, u, f) :=                                                                           (* 522-549 *)
            match TlsNames.me_flags e with
            | TlsNames.FlOk => let '(r, u) := ask true in (r, u, TlsNames.FlOk)
            | TlsNames.FlNotTrusted =>
                if N.eqb d 0 then let '(r, u) := ask false in (r, u, match r with TlsNames.VOk => TlsNames.FlOk | _ => TlsNames.FlNotTrusted end)
                else (TlsNames.VNo, s_user s, TlsNames.FlNotTrusted)
            | TlsNames.FlMissing => let '(r, u) := ask false in (r, u, match r with TlsNames.VOk => TlsNames.FlOk | _ => TlsNames.FlMissing end)
            | TlsNames.FlOther n => (TlsNames.VNo, s_user s, TlsNames.FlOther n)
            end in
          match r with
          | TlsNames.VUb => Done None
          | _ =>
              let fatal := match r with TlsNames.VFatal => true | _ => false end in
              match (if fatal || N.eqb d 0 then cert_destroy ch h1 else Done h1) with                    (* 551-554 *)
              | Wild => Wild
              | Endless => Endless
              | Done h2 =>
                  match r with
                  | TlsNames.VOk =>                                                                     (* 559-568 *)
                      if N.eqb d 0 then
                        match s_client s with
                        | Some _ => Done (Some (mkSt h2 ch (s_client s) u, true, f))
                        | None => match cert_dup (k_client k) c h2 with
                                  | Wild => Wild
                                  | Endless => Endless
                                  | Done (h3, cl) => Done (Some (mkSt h3 ch cl u, match cl with Some _ => true | None => false end, f))
                                  end
                        end
                      else Done (Some (mkSt h2 ch (s_client s) u, true, f))
                  | TlsNames.VFatal => Done (Some (mkSt h2 ch (s_client s) u, false, f))
                  | _ => Done (Some (mkSt h2 ch (s_client s) u, true,
                                     if N.eqb d 0 then match f with TlsNames.FlOk => TlsNames.FlOther 0 | _ => f end else f))
                  end
              end
          end
      end
  end.

(** mbedtls_x509_crt_verify(): the callback from the top of the chain down until a call fails; the client is accepted if none
    failed and no flags remain. *)
Fixpoint verify_run (ks : list call) (s : st) (good : bool) : out (option (st * bool)) :=
  match ks with
  | [] => Done (Some (s, good))
  | k :: ks' =>
      match verify_cb k s with
      | Wild => Wild
      | Endless => Endless
      | Done None => Done None
      | Done (Some (s1, false, _)) => Done (Some (s1, false))
      | Done (Some (s1, true, f)) => verify_run ks' s1 (good && match f with TlsNames.FlOk => true | _ => false end)
      end
  end.
End Verify.

(** session_server_tls.c 798-807: the data of the callback are zeros and so is the new session. *)
Definition start : st := mkSt (mkHeap [] 0 []) None None None.
