(** C87: the standard descriptors. *)
From Verif Require Import Base StdModel StdSpec.
Local Open Scope nat_scope.

Lemma lookup_put t i x j : lookup (put t i x) j = if j =? i then x else lookup t j.
Proof.
  unfold lookup. revert t j. induction i as [|i IH]; intros [|y t] [|j]; cbn [put nth Nat.eqb]; try reflexivity.
  - destruct j; reflexivity.
  - rewrite IH. destruct (j =? i); [reflexivity|]. destruct j; reflexivity.
  - apply IH.
Qed.
Lemma lowest_spec t : lookup t (lowest t) = None /\ forall i, i < lowest t -> lookup t i <> None.
Proof.
  unfold lookup. induction t as [|[x|] t [IH1 IH2]]; cbn [lowest].
  - split; [reflexivity|intros i H; inversion H].
  - cbn [nth]. split; [exact IH1|]. intros [|i] H; cbn [nth]; [discriminate|]. apply IH2. lia.
  - split; [reflexivity|intros i H; inversion H].
Qed.
Lemma lowest_unique t a : lookup t a = None -> (forall i, i < a -> lookup t i <> None) -> lowest t = a.
Proof.
  intros H1 H2. destruct (lowest_spec t) as [A B]. destruct (Nat.lt_trichotomy (lowest t) a) as [L|[E|G]]; [contradiction (H2 _ L)|exact E|contradiction (B _ G)].
Qed.
Lemma lowest_length t : lowest t <= length t.
Proof. induction t as [|[x|] t IH]; cbn [lowest length]; lia. Qed.
Lemma put_length t i x : length (put t i x) <= max (length t) (S i).
Proof. revert t. induction i as [|i IH]; intros [|y t]; cbn [put length]; try lia; [specialize (IH []); cbn [length] in IH; lia|specialize (IH t); lia]. Qed.
Lemma open_dummy limit t : match open_dummy_desc limit t with
  | Ok (fd, t') => fd = lowest t /\ (forall j, lookup t' j = if j =? fd then dummy else lookup t j) /\ length t' <= length t + 2
  | Die => limit < length t + 2 | Undef => False end.
Proof.
  unfold open_dummy_desc, k_pipe. destruct (lowest_spec t) as [A1 A2]. set (t1 := put t (lowest t) (Some (PipeRead, false))). destruct (lowest_spec t1) as [B1 B2].
  pose proof (lowest_length t) as L0. pose proof (lowest_length t1) as L1. pose proof (put_length t (lowest t) (Some (PipeRead, false))) as P1. fold t1 in P1.
  destruct (Nat.leb_spec limit (lowest t1)) as [Lt|Ge]; [lia|]. cbn [fst snd].
  assert (Ne : lowest t1 <> lowest t). { intros E. rewrite E in B1. unfold t1 in B1. rewrite lookup_put, Nat.eqb_refl in B1. discriminate. }
  set (t2 := close (put t1 (lowest t1) (Some (PipeWrite, false))) (lowest t1)).
  assert (H2 : forall j, lookup t2 j = if j =? lowest t then Some (PipeRead, false) else lookup t j).
  { intros j. unfold t2, close. rewrite !lookup_put. destruct (Nat.eqb_spec j (lowest t1)) as [->|N1].
    - assert (HT : forall k, lookup t1 k = if k =? lowest t then Some (PipeRead, false) else lookup t k) by (intros k; apply lookup_put).
      rewrite HT in B1. destruct (Nat.eqb_spec (lowest t1) (lowest t)); [contradiction|]. symmetry. exact B1.
    - unfold t1. rewrite lookup_put. reflexivity. }
  unfold set_cloexec_flag. rewrite H2, Nat.eqb_refl. split; [reflexivity|]. split.
  - intros j. rewrite lookup_put, H2. destruct (j =? lowest t); reflexivity.
  - pose proof (put_length t1 (lowest t1) (Some (PipeWrite, false))) as P2. pose proof (put_length (put t1 (lowest t1) (Some (PipeWrite, false))) (lowest t1) None) as P3. unfold close in t2. fold t2 in P3.
    pose proof (put_length t2 (lowest t) (Some (PipeRead, true))) as P4. lia.
Qed.

(** Afterwards the three standard descriptors are open: those that were keep what they were, the others are dummies; nothing else has changed, and the two flags tell which of stdin and stdout are dummies. *)
Lemma ensure_loop_spec limit fuel : forall t p q, 3 < fuel + length (filter (fun i => match lookup t i with Some _ => true | None => false end) [0; 1; 2]) ->
  (forall i, i = 0 \/ i = 1 -> (if i =? 0 then fst p else snd p) = true <-> (lookup q i = None)  /\ (lookup t i <> None)) ->
  (forall i, lookup t i = lookup q i \/ (i <= 1 /\ lookup q i = None /\ lookup t i = dummy)) ->
  match ensure_loop fuel limit t p with
  | Ok (t', p') => (forall i, lookup t' i = if i <=? 2 then (match lookup q i with Some x => Some x | None => dummy end) else lookup q i) /\
                   (fst p' = true <-> lookup q 0 = None) /\ (snd p' = true <-> lookup q 1 = None)
  | Die => limit < length t + 2 * fuel
  | Undef => False
  end.
Proof.
  induction fuel as [|fuel IH]; intros t p q F HP HQ.
  { exfalso. cbn [filter] in F. destruct (lookup t 0), (lookup t 1), (lookup t 2); cbn [length] in F; lia. }
  cbn [ensure_loop]. pose proof (open_dummy limit t) as O. destruct (open_dummy_desc limit t) as [[fd t1]| |]; cbn [rbind]; [|lia|destruct O].
  destruct O as (Efd & H1 & Len). destruct (lowest_spec t) as [A1 A2]. rewrite <- Efd in A1, A2.
  assert (Q : lookup q fd = None). { destruct (HQ fd) as [E|(_ & _ & E)]; [rewrite <- E; exact A1|rewrite A1 in E; discriminate]. }
  destruct (Nat.leb_spec fd 2) as [Le|Gt].
  - destruct (Nat.eqb_spec fd 2) as [E2|N2].
    + subst fd. rewrite E2 in *. split; [|split].
      * intros i. rewrite H1. destruct (Nat.eqb_spec i 2) as [->|Ni]; [cbn [Nat.leb]; rewrite Q; reflexivity|].
        destruct (Nat.leb_spec i 2) as [Li|Gi].
        -- destruct (HQ i) as [E|(_ & E & D)]; [|rewrite E; exact D]. rewrite E. destruct (lookup q i) eqn:Z; [reflexivity|]. exfalso. apply (A2 i); [lia|congruence].
        -- destruct (HQ i) as [E|(L & _)]; [exact E|lia].
      * split; intros H; [apply (HP 0) in H; [exact (proj1 H)|left; reflexivity]|]. apply (HP 0); [left; reflexivity|]. split; [exact H|apply A2; lia].
      * split; intros H; [apply (HP 1) in H; [exact (proj1 H)|right; reflexivity]|]. apply (HP 1); [right; reflexivity|]. split; [exact H|apply A2; lia].
    + assert (Rec : match ensure_loop fuel limit t1 (if fd =? 0 then (true, snd p) else (fst p, true)) with
        | Ok (t', p') => (forall i, lookup t' i = if i <=? 2 then (match lookup q i with Some x => Some x | None => dummy end) else lookup q i) /\ (fst p' = true <-> lookup q 0 = None) /\ (snd p' = true <-> lookup q 1 = None)
        | Die => limit < length t1 + 2 * fuel | Undef => False end).
      { apply IH.
        - revert F. cbn [filter]. rewrite !H1. assert (D : fd = 0 \/ fd = 1) by lia. destruct D as [D|D]; rewrite D in A1 |- *; rewrite A1; cbn [Nat.eqb]; unfold dummy; destruct (lookup t 0), (lookup t 1), (lookup t 2); cbn [length]; lia.
        - intros i Hi. rewrite H1. assert (D : fd = 0 \/ fd = 1) by lia. destruct (Nat.eqb_spec i fd) as [->|Ne].
          + destruct D as [-> | ->]; cbn [Nat.eqb fst snd]; (split; [intros _; split; [exact Q|discriminate]|reflexivity]).
          + destruct D as [-> | ->]; (destruct Hi as [-> | ->]; [|]); try (contradiction Ne; reflexivity); cbn [Nat.eqb fst snd].
            * exact (HP 1 (or_intror eq_refl)).
            * exact (HP 0 (or_introl eq_refl)).
        - intros i. rewrite H1. destruct (Nat.eqb_spec i fd) as [->|Ne]; [right; repeat split; [lia|exact Q]|exact (HQ i)]. }
      destruct (ensure_loop fuel limit t1 _) as [[t' p']| |]; [exact Rec|lia|exact Rec].
  - split; [|split].
    + intros i. unfold close. rewrite lookup_put, H1. destruct (Nat.eqb_spec i fd) as [->|Ne]; [replace (fd <=? 2) with false by lia; symmetry; exact Q|].
      destruct (Nat.leb_spec i 2) as [Li|Gi].
      * destruct (HQ i) as [E|(_ & E & D)]; [|rewrite E; exact D]. rewrite E. destruct (lookup q i) eqn:Z; [reflexivity|]. exfalso. apply (A2 i); [lia|congruence].
      * destruct (HQ i) as [E|(L & _)]; [exact E|lia].
    + split; intros H; [apply (HP 0) in H; [exact (proj1 H)|left; reflexivity]|]. apply (HP 0); [left; reflexivity|]. split; [exact H|apply A2; lia].
    + split; intros H; [apply (HP 1) in H; [exact (proj1 H)|right; reflexivity]|]. apply (HP 1); [right; reflexivity|]. split; [exact H|apply A2; lia].
Qed.
Theorem C87_ensure : forall limit t,
  match ensure_standard_fds_opened limit t with
  | Ok (t', p) =>
      (forall i, i <= 2 -> lookup t' i = match lookup t i with Some x => Some x | None => dummy end) /\
      (forall i, 2 < i -> lookup t' i = lookup t i) /\
      (fst p = true <-> ~ is_open t 0) /\ (snd p = true <-> ~ is_open t 1)
  | Die => limit < length t + 8
  | Undef => False
  end.
Proof.
  intros limit t. unfold ensure_standard_fds_opened.
  pose proof (ensure_loop_spec limit 4 t (false, false) t) as H.
  destruct (ensure_loop 4 limit t (false, false)) as [[t' p]| |].
  - destruct H as (H & H0 & H1); [lia|intros i _; destruct (i =? 0); (split; [discriminate|intros [A B]; contradiction])|intros i; left; reflexivity|].
    split; [|split; [|split]].
    + intros i L. rewrite H. replace (i <=? 2) with true by lia. reflexivity.
    + intros i L. rewrite H. replace (i <=? 2) with false by lia. reflexivity.
    + rewrite H0. unfold is_open. destruct (lookup t 0); (split; intros G; [try discriminate G; intros N; apply N; reflexivity|try reflexivity; exfalso; apply G; discriminate]).
    + rewrite H1. unfold is_open. destruct (lookup t 1); (split; intros G; [try discriminate G; intros N; apply N; reflexivity|try reflexivity; exfalso; apply G; discriminate]).
  - apply H; [lia|intros i _; destruct (i =? 0); (split; [discriminate|intros [A B]; contradiction])|intros i; left; reflexivity].
  - apply H; [lia|intros i _; destruct (i =? 0); (split; [discriminate|intros [A B]; contradiction])|intros i; left; reflexivity].
Qed.
Print Assumptions C87_ensure.

(** The program still gets exactly the descriptors strace was given. *)
Theorem C87_program : forall limit t t' p i, ensure_standard_fds_opened limit t = Ok (t', p) -> after_exec t' i = after_exec t i.
Proof.
  intros limit t t' p i E. pose proof (C87_ensure limit t) as H. rewrite E in H. destruct H as (H1 & H2 & _). unfold after_exec. destruct (Nat.leb_spec i 2) as [L|L]; [|rewrite H2 by exact L; reflexivity].
  rewrite H1 by exact L. destruct (lookup t i); reflexivity.
Qed.
Print Assumptions C87_program.

(** Nothing strace opens later gets a number below 3, and the standard descriptors stay. *)
Theorem C87_later : forall limit t t' p l, ensure_standard_fds_opened limit t = Ok (t', p) ->
  let t'' := fold_left do_act l t' in (forall i, i <= 2 -> lookup t'' i = lookup t' i /\ is_open t'' i) /\ 2 < lowest t''.
Proof.
  intros limit t t' p l E. pose proof (C87_ensure limit t) as H. rewrite E in H. destruct H as (H1 & _).
  assert (Z : forall i, i <= 2 -> lookup t' i <> None). { intros i L. rewrite H1 by exact L. destruct (lookup t i); discriminate. } clear E H1.
  assert (Lo : forall u, (forall i, i <= 2 -> lookup u i <> None) -> 2 < lowest u).
  { intros u Hu. destruct (lowest_spec u) as [A _]. destruct (Nat.ltb_spec 2 (lowest u)) as [|G]; [assumption|]. contradiction (Hu _ G). }
  cbn zeta. assert (G : forall i, i <= 2 -> lookup (fold_left do_act l t') i = lookup t' i).
  { revert t' Z. induction l as [|a l IH]; intros t' Z i L; cbn [fold_left]; [reflexivity|].
    assert (S1 : forall j, j <= 2 -> lookup (do_act t' a) j = lookup t' j).
    { intros j Lj. destruct a as [d c|k]; cbn [do_act]; unfold close; rewrite lookup_put.
      - pose proof (Lo t' Z). replace (j =? lowest t') with false by lia. reflexivity.
      - replace (j =? 3 + k) with false by lia. reflexivity. }
    rewrite (IH (do_act t' a)); [apply S1; exact L| |exact L]. intros j Lj. rewrite S1 by exact Lj. apply Z. exact Lj. }
  split; [intros i L; split; [apply G; exact L|unfold is_open; rewrite G by exact L; apply Z; exact L]|]. apply Lo. intros i L. rewrite G by exact L. apply Z. exact L.
Qed.
Print Assumptions C87_later.

(** Redirected, stdin and stdout hold nothing any more; everything else is as before. *)
Lemma redirect_one limit t i : i <= 1 -> (forall j, j <= 2 -> is_open t j) ->
  match open_dummy_desc limit (close t i) with Ok (fd, t') => (forall j, lookup t' j = if j =? i then dummy else lookup t j) /\ length t' <= length t + 2 | Die => limit < length t + 2 | Undef => False end.
Proof.
  intros L Z. assert (L3 : 3 <= length t). { specialize (Z 2 ltac:(lia)). unfold is_open, lookup in Z. destruct (Nat.leb_spec 3 (length t)) as [|G]; [assumption|]. contradiction Z. apply nth_overflow. lia. }
  pose proof (open_dummy limit (close t i)) as O. unfold close in *. pose proof (put_length t i None) as PL. destruct (open_dummy_desc limit (put t i None)) as [[fd t']| |]; [|lia|exact O].
  destruct O as (E & H & Hl). assert (F : lowest (put t i None) = i).
  { apply lowest_unique; [rewrite lookup_put, Nat.eqb_refl; reflexivity|]. intros j Lj. rewrite lookup_put. replace (j =? i) with false by lia. apply Z. lia. }
  rewrite F in E. subst fd. split; [|lia]. intros j. rewrite H, lookup_put. destruct (j =? i); reflexivity.
Qed.
Theorem C87_redirect : forall limit t0 t1 p l, ensure_standard_fds_opened limit t0 = Ok (t1, p) ->
  let t := fold_left do_act l t1 in
  match redirect_standard_fds limit p t with
  | Ok t' => lookup t' 0 = dummy /\ lookup t' 1 = dummy /\ forall i, 1 < i -> lookup t' i = lookup t i
  | Die => limit < length t + 4
  | Undef => False
  end.
Proof.
  intros limit t0 t1 p l E t. destruct (C87_later limit t0 t1 p l E) as (K & _). cbn zeta in K. fold t in K.
  pose proof (C87_ensure limit t0) as H. rewrite E in H. destruct H as (H1 & _ & P0 & P1).
  assert (D0 : fst p = true -> lookup t 0 = dummy). { intros T. apply P0 in T. rewrite (proj1 (K 0 ltac:(lia))), H1 by lia. unfold is_open in T. destruct (lookup t0 0); [contradiction T; discriminate|reflexivity]. }
  assert (D1 : snd p = true -> lookup t 1 = dummy). { intros T. apply P1 in T. rewrite (proj1 (K 1 ltac:(lia))), H1 by lia. unfold is_open in T. destruct (lookup t0 1); [contradiction T; discriminate|reflexivity]. }
  assert (Z : forall j, j <= 2 -> is_open t j) by (intros j L; apply K; exact L). clear K H1 E.
  unfold redirect_standard_fds.
  assert (S0 : match (if fst p then Ok t else rbind (open_dummy_desc limit (close t 0)) (fun '(_, t) => Ok t)) with Ok u => (forall j, lookup u j = if j =? 0 then dummy else lookup t j) /\ length u <= length t + 2 | Die => limit < length t + 2 | Undef => False end).
  { destruct (fst p) eqn:F.
    - split; [|lia]. intros j. destruct (Nat.eqb_spec j 0) as [->|]; [apply D0; reflexivity|reflexivity].
    - pose proof (redirect_one limit t 0 ltac:(lia) Z) as R. destruct (open_dummy_desc limit (close t 0)) as [[fd u]| |]; cbn [rbind]; exact R. }
  destruct (if fst p then Ok t else _) as [u| |]; cbn [rbind]; [|lia|exact S0]. destruct S0 as [S0 Lu].
  assert (Zu : forall j, j <= 2 -> is_open u j). { intros j L. unfold is_open. rewrite S0. destruct (j =? 0); [discriminate|apply Z; exact L]. }
  destruct (snd p) eqn:F.
  - repeat split; [rewrite S0; reflexivity|rewrite S0; apply D1; reflexivity|]. intros i L. rewrite S0. replace (i =? 0) with false by lia. reflexivity.
  - pose proof (redirect_one limit u 1 ltac:(lia) Zu) as R. destruct (open_dummy_desc limit (close u 1)) as [[fd v]| |]; cbn [rbind]; [|lia|exact R]. destruct R as [R _].
    repeat split; [rewrite R, S0; reflexivity|rewrite R; reflexivity|]. intros i L. rewrite R, S0. replace (i =? 0) with false by lia. replace (i =? 1) with false by lia. reflexivity.
Qed.
Print Assumptions C87_redirect.

(** ** Example: the coredump helper, with stdin only *)
Example C87_nonvacuous : match ensure_standard_fds_opened 1024 [Some (Old 5, false)] with
  | Ok (t, p) => p = (false, true) /\ firstn 3 t = [Some (Old 5, false); dummy; dummy] /\
                 match redirect_standard_fds 1024 p (do_act t (Open (Old 9) true)) with Ok u => firstn 4 u = [dummy; dummy; dummy; Some (Old 9, true)] | _ => False end
  | _ => False end.
Proof. vm_compute. repeat split. Qed.
