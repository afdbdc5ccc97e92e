(** C302: the memory for downloaded CRLs. *)
From Coq Require Import Ascii String Arith NArith Bool Lia List.
From Verif Require Import Bytes TlsConn CrlMem.
Import ListNotations.
Local Open Scope list_scope.

(* ------------------------------------------------------------------ *)
(** ** Specification *)

(** A download: the pieces, each with whether there is memory for it, and how it ends. *)
Definition download : Type := list (bytes * bool) * bool.

(** Full statement: only bytes that were downloaded are given to the parser and nothing is freed twice, whatever comes and if there is memory or not. *)
Definition c302_full : Prop := forall good (l : list download), exists r, loop good l zero [] false = Ends r.

(** There is memory, and no piece is empty. *)
Definition normal (x : download) : Prop := forall d mem, In (d, mem) (fst x) -> d <> [] /\ mem = true.
(** The bytes that came. *)
Definition came (x : download) : fetch := {| d_data := List.concat (map fst (fst x)); d_ok := snd x |}.

(* ------------------------------------------------------------------ *)
(** ** Lemmas *)

(** The buffer with the bytes [x]. *)
Definition has (x : bytes) : buf := {| b_data := match x with [] => None | _ => Some (map Some x) end; b_size := List.length x |}.

Lemma written_all (x : bytes) : written (map Some x) = Some x.
Proof. induction x as [|a x IH]; [reflexivity|]. cbn [map written]. now rewrite IH. Qed.

Lemma put_end (x d : bytes) (r : list (option ascii)) : List.length r = List.length d -> put (map Some x ++ r) (List.length x) d = map Some (x ++ d).
Proof.
  intros L. unfold put. rewrite firstn_app, firstn_all2 by (rewrite map_length; lia). rewrite map_length, Nat.sub_diag. cbn [firstn]. rewrite app_nil_r.
  rewrite skipn_all2 by (rewrite app_length, map_length; lia). now rewrite app_nil_r, map_app.
Qed.

Lemma cb_has x (d : bytes) : d <> [] -> curl_cb (has x) d true = Some (has (x ++ d), List.length d).
Proof.
  intros N. assert (H : has (x ++ d) = {| b_data := Some (map Some (x ++ d)); b_size := List.length x + List.length d |}).
  { unfold has. rewrite app_length. destruct (x ++ d) eqn:E; [|reflexivity]. apply app_eq_nil in E. now destruct E. }
  rewrite H. unfold curl_cb, nc_realloc. destruct x as [|a x].
  - cbn [has b_data b_size realloc List.length plus]. pose proof (put_end [] d (repeat None (List.length d)) (repeat_length _ _)) as P. cbn [map app List.length] in P. cbn [app]. now rewrite P.
  - change (b_data (has (a :: x))) with (Some (map Some (a :: x))). change (b_size (has (a :: x))) with (List.length (a :: x)). set (y := a :: x).
    assert (R : realloc (Some (map Some y)) (List.length y + List.length d) true = New (map Some y ++ repeat None (List.length d))).
    { unfold realloc. replace (List.length y + List.length d) with (S (List.length x + List.length d)) at 1 by reflexivity. f_equal.
      rewrite firstn_app, firstn_all2 by (rewrite map_length; lia). f_equal. rewrite map_length.
      replace (List.length y + List.length d - List.length y) with (List.length d) by lia. rewrite Nat.add_comm, repeat_app, firstn_app, firstn_all2 by (rewrite repeat_length; lia).
      rewrite repeat_length, Nat.sub_diag. cbn [firstn]. now rewrite app_nil_r. }
    rewrite R. now rewrite put_end by apply repeat_length.
Qed.

Lemma perform_has : forall (ps : list (bytes * bool)) x ok, (forall d mem, In (d, mem) ps -> d <> [] /\ mem = true) ->
  perform (has x) ps ok = Some (has (x ++ List.concat (map fst ps)), ok).
Proof.
  induction ps as [|[d mem] ps IH]; intros x ok N; [cbn; now rewrite app_nil_r|]. destruct (N d mem) as [Nd ->]; [now left|]. cbn [perform map fst List.concat].
  rewrite cb_has by exact Nd. rewrite Nat.eqb_refl. rewrite IH by (intros; apply N; now right). now rewrite app_assoc.
Qed.

(* ------------------------------------------------------------------ *)
(** ** C302 *)

(** With memory and without empty pieces, the model without memory of C-properties of TlsConn.v is exact: there a parser that takes nothing empty is used. *)
Lemma loop_same good : good [] = false -> forall (l : list download) x store ret, (forall y, In y l -> normal y) ->
  loop good l (has x) store ret = Ends (crl_loop good (fun _ => false) OpenSSL (map came l) x store ret).
Proof.
  intros G. induction l as [|[ps ok] l IH]; intros x store ret N.
  - cbn [loop map crl_loop]. do 2 f_equal. unfold has. destruct x; cbn [b_data]; [reflexivity|]. now rewrite written_all.
  - cbn [loop map crl_loop came fst snd d_data d_ok]. rewrite perform_has by (apply (N (ps, ok)); now left). set (y := x ++ List.concat (map fst ps)).
    assert (N' : forall z, In z l -> normal z) by (intros; apply N; now right).
    destruct ok; cbn [negb]; [|now apply IH]. unfold add_crl. unfold has. cbn [b_data]. clearbody y. destruct y as [|a y]; [rewrite G; reflexivity|].
    rewrite written_all. destruct (good (a :: y)); [|reflexivity]. rewrite <- (IH [] (store ++ [a :: y]) false N'). reflexivity.
Qed.

Theorem c302_partial good (l : list download) : good [] = false -> (forall y, In y l -> normal y) ->
  loop good l zero [] false = Ends (crl_loop good (fun _ => false) OpenSSL (map came l) [] [] false).
Proof. intros G N. exact (loop_same good G l [] [] false N). Qed.

(** If there is no memory for a piece after others, the next download that succeeds is read with bytes that were never written. *)
Theorem c302_lost good x (d e : bytes) ps ok (l : list download) store ret : x <> [] -> d <> [] -> e <> [] ->
  loop good (([(d, false)] ++ ps, ok) :: ([(e, true)], true) :: l) (has x) store ret = Unwritten.
Proof.
  intros Nx Nd Ne. destruct x as [|a x]; [congruence|]. destruct d as [|c d]; [congruence|]. destruct e as [|f e]; [congruence|].
  cbn [loop perform app]. unfold curl_cb at 1. unfold nc_realloc, realloc. cbn [has b_data b_size List.length plus Nat.eqb].
  unfold curl_cb, nc_realloc, realloc. cbn [b_data b_size]. rewrite Nat.eqb_refl. cbn [repeat plus put firstn app written]. reflexivity.
Qed.

(** An empty piece leaves an empty block, which another one frees twice. *)
Theorem c302_twice good ps ok (l : list download) store ret mem : loop good ((([], true) :: ([], mem) :: ps, ok) :: l) zero store ret = FreedTwice.
Proof. reflexivity. Qed.
Theorem c302_twice_later good (l : list download) store ret mem ps ok : loop good (([([], true)], false) :: (([], mem) :: ps, ok) :: l) zero store ret = FreedTwice.
Proof. reflexivity. Qed.

Theorem c302_refuted : ~ c302_full.
Proof. intros F. destruct (F (fun _ => true) [([([], true); ([], true)], true)]) as (r & E). rewrite c302_twice in E. discriminate. Qed.

(** Nothing worse happens: with memory and at most non-empty pieces after the first the bytes are those that came.  With memory nothing unwritten is read. *)
Definition clean (b : buf) : Prop := b = zero \/ exists x, b = {| b_data := Some (map Some x); b_size := List.length x |}.
Lemma cb_clean b d b' n : clean b -> curl_cb b d true = Some (b', n) -> clean b' /\ n = List.length d.
Proof.
  intros [->|(x & ->)].
  - unfold curl_cb, nc_realloc, realloc. cbn [zero b_data b_size plus]. intros [= <- <-]. split; [|reflexivity]. right. exists d.
    pose proof (put_end [] d (repeat None (List.length d)) (repeat_length _ _)) as P. cbn [map app List.length] in P. now rewrite P.
  - destruct x as [|a x].
    + unfold curl_cb, nc_realloc, realloc. cbn [b_data b_size List.length plus map]. destruct d as [|c d]; [discriminate|]. intros [= <- <-]. split; [|reflexivity]. right. exists (c :: d).
      cbn [map]. f_equal. unfold put. cbn [firstn app plus]. f_equal. rewrite skipn_all2, app_nil_r; [reflexivity|].
      cbn [List.length]. rewrite firstn_length. lia.
    + destruct d as [|c d].
      * unfold curl_cb, nc_realloc, realloc. cbn [b_data b_size]. rewrite Nat.add_0_r. cbn [List.length]. intros [= <- <-]. split; [|reflexivity]. right. exists (a :: x).
        f_equal. f_equal. unfold put. change (S (List.length x)) with (List.length (a :: x)). set (y := a :: x).
        change (Some a :: map Some x) with (map Some y). rewrite Nat.add_0_r.
        assert (Q : forall r, firstn (List.length y) (map Some y ++ r) = map (@Some ascii) y).
        { intros r. rewrite firstn_app, firstn_all2 by (rewrite map_length; lia). rewrite map_length, Nat.sub_diag. cbn [firstn]. apply app_nil_r. }
        cbn [map app]. fold y. change (Some a :: map Some x) with (map Some y).
        change (firstn (List.length x) (map Some x ++ None :: repeat None (List.length x))) with (firstn (List.length x) (map (@Some ascii) x ++ repeat None (List.length y))).
        assert (Q' : Some a :: firstn (List.length x) (map (@Some ascii) x ++ repeat None (List.length y)) = map (@Some ascii) y).
        { unfold y at 2. cbn [map]. f_equal. rewrite firstn_app, firstn_all2 by (rewrite map_length; lia). rewrite map_length, Nat.sub_diag. cbn [firstn]. apply app_nil_r. }
        rewrite ?Q'. rewrite firstn_all2, skipn_all2 by (rewrite map_length; lia). apply app_nil_r.
      * assert (N : c :: d <> []) by discriminate. pose proof (cb_has (a :: x) (c :: d) N) as H. unfold has in H. cbn [app] in H. intros E.
        cbn [map] in *. rewrite H in E. injection E as <- <-. split; [|reflexivity]. right. exists (a :: x ++ c :: d). reflexivity.
Qed.
Lemma perform_clean : forall (ps : list (bytes * bool)) b ok b' r, clean b -> (forall d mem, In (d, mem) ps -> mem = true) -> perform b ps ok = Some (b', r) -> clean b' /\ r = ok.
Proof.
  induction ps as [|[d mem] ps IH]; intros b ok b' r C M; cbn [perform]; [intros [= <- <-]; auto|]. rewrite (M d mem) by now left.
  destruct (curl_cb b d true) as [[b1 n]|] eqn:E; [|discriminate]. destruct (cb_clean _ _ _ _ C E) as [C1 ->]. rewrite Nat.eqb_refl. apply IH; [exact C1|]. intros; apply (M d0). now right.
Qed.
Theorem c302_memory good : forall (l : list download) b store ret, clean b -> (forall y, In y l -> forall d mem, In (d, mem) (fst y) -> mem = true) -> loop good l b store ret <> Unwritten.
Proof.
  induction l as [|[ps ok] l IH]; intros b store ret C M; cbn [loop]; [discriminate|].
  destruct (perform b ps ok) as [[b1 r]|] eqn:E; [|discriminate]. destruct (perform_clean ps b ok b1 r C (M (ps, ok) (or_introl eq_refl)) E) as [C1 ->].
  assert (M' : forall y, In y l -> forall d mem, In (d, mem) (fst y) -> mem = true) by (intros y Hy; apply M; now right).
  destruct ok; [|now apply IH]. destruct C1 as [->|(x & ->)]; cbn [zero b_data]; [discriminate|]. rewrite written_all. destruct (good x); [|discriminate]. apply IH; [now left|exact M'].
Qed.

(** Two CRLs, in three pieces, and one that could not be downloaded. *)
Example c302_case :
  let g (x : bytes) := negb (Nat.eqb (List.length x) 0) in
  loop g [([(bs "ab", true); (bs "c", true)], true); ([], false); ([(bs "d", true)], true)] zero [] false = Ends (CrlRet false (Some [bs "abc"; bs "d"]) []).
Proof. vm_compute. reflexivity. Qed.

Print Assumptions c302_partial.
Print Assumptions c302_lost.
Print Assumptions c302_twice.
Print Assumptions c302_twice_later.
Print Assumptions c302_memory.
Print Assumptions c302_refuted.
