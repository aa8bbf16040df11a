(** C36, C37, C38, C39: symbolic constants. *)
From Coq Require Import Sorted.
From Verif Require Import Base Printf BitsModel AllocModel XlatModel XlatSpec XlatProofs XlatText XlatMore.
Local Open Scope N_scope.

(** ** C36 *)
(** What printflags_ex prints for any value, style and tables is one of the forms of
    [render] for some [reading] of the value: the constants printed come from the tables, are
    contained in the value, and their OR with the number printed last is the value.  If zero
    has no printed name, no table starts with a name for zero. *)
Theorem C36_flags_reading : forall flags dflt st f xs, exists chosen rest,
  reading (all_entries xs) flags chosen rest /\
  printflags_ex flags dflt st f xs = render st f dflt flags chosen rest /\
  (flags = 0 -> chosen = [] -> forall x v s r, In x xs -> data x = (v, Some s) :: r -> v <> 0).
Proof. exact printflags_render. Qed.
Print Assumptions C36_flags_reading.

(** Two different values never print the same. *)
Theorem C36_flags_lossless : forall f1 f2 dflt st f xs, f1 < 2^64 -> f2 < 2^64 ->
  (st = XABBREV -> names_readable (all_entries xs) /\ forall d, dflt = Some d -> ~ In 124 d) ->
  printflags_ex f1 dflt st f xs = printflags_ex f2 dflt st f xs -> f1 = f2.
Proof. exact printflags_lossless. Qed.
Print Assumptions C36_flags_lossless.

(** sprintflags_ex, which builds the text in a 1024-byte buffer, gives the same text after the
    prefix and the separator, and NULL when that text is empty. *)
Theorem C36_sprintflags_same : forall prefix x flags sep st f,
  let text := printflags_ex flags None st f [x] in
  (data x <> [] \/ flags <> 0 \/ st = XRAW) ->
  Forall (fun e => snd e <> Some []) (data x) ->
  N.of_nat (length (prefix ++ (if sep =? 0 then [] else [sep]) ++ text)) < 1024 ->
  sprintflags_ex prefix x flags sep st false f =
  Ok (match text with [] => None | _ => Some (prefix ++ (if sep =? 0 then [] else [sep]) ++ text) end).
Proof. exact sprintflags_eq. Qed.
Print Assumptions C36_sprintflags_same.

Definition ex_open : xlat :=
  {| ty := XT_NORMAL; data := [(0, Some (bs "O_RDONLY")); (1, Some (bs "O_WRONLY")); (0x101000, Some (bs "O_SYNC")); (0x1000, Some (bs "O_DSYNC")); (0x40, Some (bs "O_CREAT"))] |}.
Example ex_open_readable : names_readable (all_entries [ex_open]).
Proof.
  split.
  - intros v s H. cbn -[bs] in H. repeat (destruct H as [H|H]; [inversion H; subst; clear H; split; [intros X; vm_compute in X; intuition discriminate|];
      eexists; eexists; split; [vm_compute; reflexivity|unfold digit_like; lia]|]). contradiction.
  - intros v1 v2 s H1 H2. cbn -[bs] in H1, H2.
    repeat (destruct H1 as [H1|H1]; [inversion H1; subst; clear H1; repeat (destruct H2 as [H2|H2]; [vm_compute in H2; inversion H2; reflexivity|]); contradiction|]).
    contradiction.
Qed.
Example ex_flags : printflags_ex 0x801041 (Some (bs "O_???")) XABBREV FMT_X [ex_open] = bs "O_WRONLY|O_DSYNC|O_CREAT|0x800000".
Proof. reflexivity. Qed.
Example ex_flags2 : printflags_ex 0x801041 (Some (bs "O_???")) XVERBOSE FMT_X [ex_open] = bs "0x801041 /* O_WRONLY|O_DSYNC|O_CREAT|0x800000 */".
Proof. reflexivity. Qed.
Example ex_flags0 : printflags_ex 0 (Some (bs "O_???")) XABBREV FMT_X [ex_open] = bs "O_RDONLY".
Proof. reflexivity. Qed.
Example ex_sflags : sprintflags_ex (bs "flags ") ex_open 0x101040 124 XABBREV false FMT_X = Ok (Some (bs "flags |O_SYNC|O_CREAT")).
Proof. reflexivity. Qed.

(** ** C37 *)
Theorem C37_lookup : forall x val, table_ok x ->
  (forall s, xlookup x val = Some s -> named x val s) /\
  (xlookup x val = None <-> forall s, ~ named x val s).
Proof.
  intros x val OK. pose proof (xlookup_spec x val OK) as H. destruct (xlookup x val) as [s|].
  - split; [intros s' E; inversion E; subst; exact H|]. split; [discriminate|]. intros X. exfalso. eapply X; eauto.
  - split; [discriminate|]. tauto.
Qed.
Print Assumptions C37_lookup.

(** In a sorted or indexed table the value determines the name. *)
Theorem C37_lookup_unique : forall x val s, table_ok x -> ty x <> XT_NORMAL -> (xlookup x val = Some s <-> named x val s).
Proof.
  intros x val s OK T. destruct (C37_lookup x val OK) as [H1 H2]. split; [apply H1|]. intros HN.
  destruct (xlookup x val) as [s'|] eqn:E; [|exfalso; apply (proj1 H2 eq_refl s HN)]. f_equal. specialize (H1 s' eq_refl).
  unfold named, table_ok in *. destruct (ty x); [congruence| |].
  - destruct OK as [S _]. apply In_nth_error in H1 as [i Hi]. apply In_nth_error in HN as [j Hj].
    destruct (Nat.lt_trichotomy i j) as [L|[->|L]]; [| |].
    + pose proof (ss_nth _ S i j _ _ Hi Hj L) as X. cbn in X. lia.
    + congruence.
    + pose proof (ss_nth _ S j i _ _ Hj Hi L) as X. cbn in X. lia.
  - apply In_nth_error in H1 as [i Hi]. apply In_nth_error in HN as [j Hj].
    destruct (OK _ _ _ Hi) as [[_ A]|[A _]]; [|discriminate]. destruct (OK _ _ _ Hj) as [[_ B]|[B _]]; [|discriminate].
    assert (i = j) by lia. subst j. congruence.
Qed.
Print Assumptions C37_lookup_unique.

(** Reverse lookup, and the round trip through both. *)
Theorem C37_reverse : forall x str u,
  (exists v, xrlookup x str u = v /\ named x v str) \/ (xrlookup x str u = u /\ forall v, ~ named x v str).
Proof. exact xrlookup_spec. Qed.
Print Assumptions C37_reverse.
Theorem C37_round_trip : forall x val s u, table_ok x -> names_readable (data x) -> xlookup x val = Some s -> xrlookup x s u = val.
Proof.
  intros x val s u OK [_ UN] E. apply (C37_lookup x val OK) in E. destruct (xrlookup_spec x s u) as [(v & H1 & H2)|[_ H]].
  - rewrite H1. eapply UN; eauto.
  - exfalso. eapply H; eauto.
Qed.
Print Assumptions C37_round_trip.

(** A value printed by name, by number or by both can be told from every other value. *)
Theorem C37_value_lossless : forall v1 v2 dflt st f xs, v1 < 2^64 -> v2 < 2^64 ->
  Forall table_ok xs -> (st = XABBREV -> names_readable (all_entries xs)) ->
  printxvals_ex v1 dflt st f xs = printxvals_ex v2 dflt st f xs -> v1 = v2.
Proof.
  intros v1 v2 dflt st f xs L1 L2 OK HN.
  assert (V : forall d1 d2, sprint_xlat_val f v1 ++ comment d1 = sprint_xlat_val f v2 ++ comment d2 -> v1 = v2).
  { intros d1 d2 E. apply (split_at 32) in E; try (apply sprint_not_in, plain32); try apply comment_head.
    destruct E as [E _]. eapply sprint_inj; eauto. }
  assert (NM : forall v s, xlookups xs v = Some s -> In (v, Some s) (all_entries xs)).
  { clear -OK. intros v s. unfold all_entries. induction xs as [|x xs IH]; [discriminate|]. inversion OK; subst. cbn [xlookups map concat].
    intros E. apply in_or_app. pose proof (xlookup_spec x v H1) as H. destruct (xlookup x v); [inversion E; subst; left; exact H|right; auto]. }
  unfold printxvals_ex. destruct st; [|apply sprint_inj; assumption|].
  - destruct (HN eq_refl) as [N1 N2].
    assert (HD : forall v s w d, In (v, Some s) (all_entries xs) -> s <> sprint_xlat_val f w ++ comment d).
    { intros v s w d HI E. destruct (N1 v s HI) as (_ & c & r & Es & Hc). destruct (sprint_head f w) as (c' & r' & Ew & Hd). rewrite Ew, Es in E.
      cbn [app] in E. inversion E. subst. contradiction. }
    destruct (xlookups xs v1) as [s1|] eqn:E1, (xlookups xs v2) as [s2|] eqn:E2; intros E.
    + subst s2. eapply N2; eauto.
    + exfalso. eapply HD; eauto.
    + exfalso. symmetry in E. eapply HD; eauto.
    + eapply V; eauto.
  - destruct (xlookups xs v1), (xlookups xs v2); apply V.
Qed.
Print Assumptions C37_value_lossless.

Definition ex_whence : xlat := {| ty := XT_INDEXED; data := [(0, Some (bs "SEEK_SET")); (1, Some (bs "SEEK_CUR")); (0, None); (3, Some (bs "SEEK_DATA"))] |}.
Example ex_whence_ok : table_ok ex_whence.
Proof. unfold table_ok, ex_whence. cbn [ty data]. intros [|[|[|[|i]]]] v s H; cbn -[bs] in H; try (destruct i; discriminate); inversion H; subst; (left; split; [discriminate|reflexivity]) || (right; split; reflexivity). Qed.
Example ex_whence_hole : xlookup ex_whence 2 = None. Proof. reflexivity. Qed.
Definition ex_sorted : xlat := {| ty := XT_SORTED; data := [(1, Some (bs "A")); (5, Some (bs "B")); (2^63, Some (bs "C"))] |}.
Example ex_sorted_ok : table_ok ex_sorted.
Proof. split; cbn [ty data ex_sorted]; [repeat constructor; cbn; lia|repeat constructor; cbn; discriminate]. Qed.
Example ex_sorted_hit : xlookup ex_sorted (2^63) = Some (bs "C") /\ xlookup ex_sorted 4 = None. Proof. split; reflexivity. Qed.

(** ** C38 *)
(** The lookup of the greatest constant not above [val]. *)
Theorem C38_lookup_le : forall (d : list entry) val, StronglySorted (fun a b => fst a < fst b) d -> d <> [] ->
  exists r, xlat_search_eq_or_less d val = Ok r /\
  match r with
  | Some (s, v) => In (v, s) d /\ v <= val /\ forall e, In e d -> fst e <= val -> fst e <= v
  | None => forall e, In e d -> val < fst e
  end.
Proof. exact xlookup_le_spec. Qed.
Print Assumptions C38_lookup_le.
Example ex_le : xlat_search_eq_or_less (data ex_sorted) 77 = Ok (Some (Some (bs "B"), 5)). Proof. reflexivity. Qed.
Example ex_le_none : xlat_search_eq_or_less (data ex_sorted) 0 = Ok None. Proof. reflexivity. Qed.
(** Without the condition on the table the code reads outside of it. *)
Theorem C38_empty_table_refuted : ~ forall d val, exists r, xlat_search_eq_or_less d val = Ok r.
Proof. intros H. destruct (H [] 0) as [r E]. discriminate. Qed.
Print Assumptions C38_empty_table_refuted.

(** ** C39 *)
(** A registration: value, bytes at the given address, length given.  The name registered is
    the first [len] bytes. *)
Record registration := { g_val : N; g_str : list N; g_len : nat }.
Definition g_name (g : registration) : list N := firstn (g_len g) (g_str g).
Definition g_ok (g : registration) : Prop := (g_len g <= length (g_str g))%nat /\ ~ In 0 (g_name g).
(** the last name registered for a value *)
Fixpoint last_name (h : list registration) (v : N) (acc : option (list N)) : option (list N) :=
  match h with
  | [] => acc
  | g :: r => last_name r v (if v =? g_val g then Some (g_name g) else acc)
  end.
Fixpoint register_all (mal : N -> bool) (d : dyxlat) (h : list registration) : res dyxlat :=
  match h with
  | [] => Ok d
  | g :: r => rlet d' := dyxlat_add_pair mal d (g_val g) (g_str g) (g_len g) in register_all mal d' r
  end.
(** After any history of registrations in a table of any initial size, looking a value up gives
    the last name registered for it and no value is there twice.  Nothing is ever read or
    written out of bounds; strace terminates only when memory runs out.
    Partial: names with a NUL within their length are excluded (see the refuted theorem). *)
Theorem C39_last_writer_wins_partial : forall mal n h, n < 2 ^ 48 -> Forall g_ok h ->
  match (rlet d := dyxlat_alloc mal n in register_all mal d h) with
  | Ok d => (forall v, xlookup (dyxlat_get XT_NORMAL d) v = last_name h v None) /\
            NoDup (map fst (data (dyxlat_get XT_NORMAL d))) /\
            N.of_nat (length (data (dyxlat_get XT_NORMAL d))) <= allocated d
  | Die => ~ ((forall b, mal b = true) /\ N.of_nat (length h) < 2 ^ 48)
  | Undef => False
  end.
Proof.
  intros mal n h Hn HF. pose proof (dy_alloc_spec mal n ltac:(lia)) as A. destruct (dyxlat_alloc mal n) as [d0| |]; cbn [rbind]; [|intros [X1 X2]; apply A; split; [auto|lia]|contradiction].
  destruct A as [A1 A2].
  assert (G : forall h d, Forall g_ok h -> dyinv n d ->
    match register_all mal d h with
    | Ok d' => (forall v, dyget (pairs d') v = last_name h v (dyget (pairs d) v)) /\ dyinv n d'
    | Die => ~ ((forall b, mal b = true) /\ N.of_nat (length (pairs d)) + N.of_nat (length h) < 2 ^ 48)
    | Undef => False
    end).
  { clear -Hn. induction h as [|g h IH]; intros d HF DI; cbn [register_all]; [auto|]. inversion HF as [|? ? [G1 G2] HF']; subst.
    pose proof (dy_add_spec mal n d (g_val g) (g_str g) (g_len g) Hn G1 G2 DI) as S. destruct (dyxlat_add_pair _ _ _ _ _) as [d'| |]; cbn [rbind].
    - destruct S as (S1 & S2 & S3). specialize (IH d' HF' S1). destruct (register_all mal d' h) as [d2| |]; [|intros [X1 X2]; apply IH; split; [exact X1|cbn [length] in X2; lia]|exact IH].
      destruct IH as [I1 I2]. split; [|exact I2]. intros v. rewrite I1, S3. reflexivity.
    - intros [X1 X2]. apply S. split; [exact X1|]. cbn [length] in X2. lia.
    - exact S. }
  specialize (G h d0 HF A2). rewrite A1 in G. destruct (register_all mal d0 h) as [d| |]; [|exact G|exact G].
  destruct G as [G1 [G2 _ G4 _ _]]. split; [|split].
  - intros v. transitivity (dyget (pairs d) v); [|rewrite G1; reflexivity]. rewrite <- dyget_lookup. reflexivity.
  - cbn [dyxlat_get data]. rewrite map_map. cbn [fst]. exact G2.
  - cbn [dyxlat_get data]. rewrite map_length. exact G4.
Qed.
Print Assumptions C39_last_writer_wins_partial.

Definition ex_reg v s : registration := {| g_val := v; g_str := s; g_len := length s |}.
Definition ex_hist : list registration := [ex_reg 16 (bs "nlctrl"); ex_reg 21 (bs "taskstats"); ex_reg 16 (bs "nl")].
Example ex_hist_ok : Forall g_ok ex_hist.
Proof. repeat constructor; cbn; try lia; intros X; intuition discriminate. Qed.
Example ex_hist_run : exists d, (rlet d := dyxlat_alloc (fun _ => true) 1 in register_all (fun _ => true) d ex_hist) = Ok d /\
  xlookup (dyxlat_get XT_NORMAL d) 16 = Some (bs "nl") /\ length (pairs d) = 2%nat.
Proof. eexists. split; [reflexivity|split; reflexivity]. Qed.

(** The condition that the name has no NUL within its length cannot be dropped: registering a
    family name again with the length of the attribute, which counts the terminating NUL,
    makes the code read one byte behind the stored name. *)
Theorem C39_terminated_name_refuted : ~ forall mal n h, n < 2 ^ 48 -> Forall (fun g => (g_len g <= length (g_str g))%nat) h ->
  (rlet d := dyxlat_alloc mal n in register_all mal d h) <> Undef.
Proof.
  intros H. apply (H (fun _ => true) 1 [ex_reg 16 (bs "nlctrl" ++ [0]); ex_reg 16 (bs "nlctrl" ++ [0])]).
  - reflexivity.
  - repeat constructor.
  - reflexivity.
Qed.
Print Assumptions C39_terminated_name_refuted.
