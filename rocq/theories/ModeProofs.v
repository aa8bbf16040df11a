From Verif Require Import Base Printf QuoteModel BitsModel XlatModel XlatSpec XlatText XlatThms ModeModel RetModel RetSpec RetProofs ModeSpec.
Local Open Scope N_scope.

(** * Reading a|b|c *)
Lemma split_bar_word w : ~ In 124 w -> split_bar w = [w].
Proof.
  induction w as [|c w IH]; [reflexivity|]. intros H. cbn [split_bar]. destruct (c =? 124) eqn:E; [exfalso; apply H; left; lia|].
  rewrite IH; [reflexivity|]. intros I. apply H. right. exact I.
Qed.
Lemma split_bar_app w s : ~ In 124 w -> split_bar (w ++ bs "|" ++ s) = w :: split_bar s.
Proof.
  change (bs "|") with [124]. induction w as [|c w IH]; [reflexivity|]. intros H. cbn [app split_bar]. destruct (c =? 124) eqn:E; [exfalso; apply H; left; lia|].
  cbn [app] in IH. rewrite IH; [reflexivity|]. intros I. apply H. right. exact I.
Qed.
Lemma read_or_word names w v : ~ In 124 w -> value_of names w = Some v -> read_or names w = Some v.
Proof. intros H E. unfold read_or. rewrite split_bar_word by exact H. cbn. rewrite E. cbn. rewrite N.lor_0_r. reflexivity. Qed.
Lemma read_or_app names w s v x : ~ In 124 w -> value_of names w = Some v -> read_or names s = Some x ->
  read_or names (w ++ bs "|" ++ s) = Some (N.lor v x).
Proof. intros H E R. unfold read_or in *. rewrite split_bar_app by exact H. cbn [fold_right]. rewrite E. cbn. rewrite R. reflexivity. Qed.
Lemma read_or_opt names (b : bool) w s v x : ~ In 124 w -> value_of names w = Some v -> read_or names s = Some x ->
  read_or names ((if b then w ++ bs "|" else []) ++ s) = Some (N.lor (if b then v else 0) x).
Proof.
  intros H E R. destruct b; cbn [app]; [rewrite <- app_assoc; apply read_or_app; auto|]. rewrite R, N.lor_0_l. reflexivity.
Qed.

(** * Numbers are not names *)
Definition lettered (names : list (N * list N)) : bool := forallb (fun e => match snd e with c :: _ => negb ((48 <=? c) && (c <=? 57)) | [] => true end && negb (beqs (snd e) [])) names.
Lemma value_of_num names c r z : lettered names = true -> 48 <= c <= 57 -> c_number (c :: r) = Some (Z.of_N z) -> value_of names (c :: r) = Some z.
Proof.
  intros L Hc E. unfold value_of. destruct (find _ names) as [e|] eqn:F.
  - exfalso. apply find_some in F as (I & B). apply beqs_eq in B. unfold lettered in L. rewrite forallb_forall in L. specialize (L e I). rewrite B in L. lia.
  - rewrite E. cbn. rewrite N2Z.id. reflexivity.
Qed.
Lemma vtext_c z t : vtext (Some z) t -> c_number t = Some z.
Proof. intros (_ & H). destruct (beqs t (bs "?")); [discriminate|]. destruct (c_number t); cbn in H; congruence. Qed.
Lemma oct_head n : exists r, print_val_03o n = 48 :: r.
Proof.
  unfold print_val_03o. destruct (n =? 0); cbv zeta; [eexists; vm_compute; reflexivity|].
  change (bs "0" ++ pr_num 8 n) with (48 :: pr_num 8 n). set (k := (3 - length (48%N :: pr_num 8 n))%nat). clearbody k. destruct k; cbn; eauto.
Qed.
Lemma oct_no_bar n : ~ In 124 (print_val_03o n).
Proof.
  unfold print_val_03o. intros I. cbv zeta in I. apply in_app_iff in I as [I|I]; [apply repeat_spec in I; discriminate I|].
  destruct (n =? 0); [revert I; noin|]. apply in_app_iff in I as [I|I]; [revert I; noin|]. revert I. apply pr_num_not_in; lia.
Qed.
Lemma hex_head n : exists r, pr_hex n = 48 :: r.
Proof. unfold pr_hex. destruct (n =? 0); eexists; reflexivity. Qed.
Lemma hex_no_bar n : ~ In 124 (pr_hex n).
Proof. unfold pr_hex. destruct (n =? 0); [noin|]. intros I. apply in_app_iff in I as [I|I]; [revert I; noin|]. revert I. apply pr_num_not_in; lia. Qed.
Lemma read_oct names n : lettered names = true -> read_or names (print_val_03o n) = Some n.
Proof.
  intros L. apply read_or_word; [apply oct_no_bar|]. pose proof (vtext_c _ _ (vtext_o n)) as V. destruct (oct_head n) as (r & E). rewrite E in *. apply value_of_num; auto; lia.
Qed.
Lemma value_hex names n : lettered names = true -> value_of names (pr_hex n) = Some n.
Proof. intros L. pose proof (vtext_c _ _ (vtext_x n)) as V. destruct (hex_head n) as (r & E). rewrite E in *. apply value_of_num; auto; lia. Qed.

(** * Modes *)
Lemma land_bit m k : N.land m (2^k) = if N.testbit m k then 2^k else 0.
Proof.
  apply N.bits_inj. intros i. rewrite N.land_spec, N.pow2_bits_eqb. destruct (k =? i) eqn:E.
  - apply N.eqb_eq in E. subst. rewrite andb_true_r. destruct (N.testbit m i) eqn:T; [rewrite N.pow2_bits_true|rewrite N.bits_0]; reflexivity.
  - rewrite andb_false_r. destruct (N.testbit m k); [rewrite N.pow2_bits_false by lia|rewrite N.bits_0]; reflexivity.
Qed.
Lemma bit_if m k : (if negb (N.land m (2^k) =? 0) then 2^k else 0) = N.land m (2^k).
Proof. rewrite land_bit. destruct (N.testbit m k); [|reflexivity]. replace (2^k =? 0) with false; [reflexivity|]. symmetry. apply N.eqb_neq. apply N.pow_nonzero. lia. Qed.
Lemma parts m a b c d : N.lor (N.land m a) (N.lor (N.land m b) (N.lor (N.land m c) (N.lor (N.land m d) (N.ldiff m (N.lor a (N.lor b (N.lor c d))))))) = m.
Proof.
  apply N.bits_inj. intros i. rewrite !N.lor_spec, N.ldiff_spec, !N.lor_spec, !N.land_spec.
  destruct (N.testbit m i), (N.testbit a i), (N.testbit b i), (N.testbit c i), (N.testbit d i); reflexivity.
Qed.
Lemma modetype_named x w : xlookup modetypes x = Some w -> w <> [] /\ ~ In 124 w /\ value_of mode_names w = Some x.
Proof.
  unfold xlookup, modetypes, tab, modetypes_l. cbn [ty data map fst snd normal_lookup].
  repeat (match goal with |- context [?v =? x] => destruct (N.eqb_spec v x) as [<-|?] end; [intros H; injection H as <-; split; [discriminate|]; split; [noin|vm_compute; reflexivity]|]).
  discriminate.
Qed.
Lemma mode_text m w : N.land m S_IFMT = 0 /\ w = [] \/ xlookup modetypes (N.land m S_IFMT) = Some w /\ N.land m S_IFMT <> 0 ->
  read_or mode_names (w ++ (match w with [] => [] | _ => bs "|" end) ++
                  (if negb (N.land m S_ISUID =? 0) then bs "S_ISUID|" else []) ++
                  (if negb (N.land m S_ISGID =? 0) then bs "S_ISGID|" else []) ++
                  (if negb (N.land m S_ISVTX =? 0) then bs "S_ISVTX|" else []) ++
                  print_val_03o (N.ldiff m (N.lor S_IFMT (N.lor S_ISUID (N.lor S_ISGID S_ISVTX))))) = Some m.
Proof.
  intros H. pose proof (parts m S_IFMT S_ISUID S_ISGID S_ISVTX) as P.
  assert (R : read_or mode_names ((if negb (N.land m S_ISUID =? 0) then bs "S_ISUID|" else []) ++
                  (if negb (N.land m S_ISGID =? 0) then bs "S_ISGID|" else []) ++
                  (if negb (N.land m S_ISVTX =? 0) then bs "S_ISVTX|" else []) ++
                  print_val_03o (N.ldiff m (N.lor S_IFMT (N.lor S_ISUID (N.lor S_ISGID S_ISVTX))))) =
    Some (N.lor (N.land m S_ISUID) (N.lor (N.land m S_ISGID) (N.lor (N.land m S_ISVTX) (N.ldiff m (N.lor S_IFMT (N.lor S_ISUID (N.lor S_ISGID S_ISVTX)))))))).
  { assert (B : forall k s x a y, s = 2^k -> a = Some (N.lor (if negb (N.land m s =? 0) then s else 0) x) -> x = y -> a = Some (N.lor (N.land m s) y)).
    { intros k s x a y -> E ->. rewrite bit_if in E. exact E. }
    eapply (B 11); [reflexivity| |eapply (f_equal2 N.lor (x1 := if negb (N.land m S_ISGID =? 0) then S_ISGID else 0) (x2 := N.lor (if negb (N.land m S_ISVTX =? 0) then S_ISVTX else 0) _)); [apply (bit_if m 10)|apply (f_equal2 N.lor); [apply (bit_if m 9)|reflexivity]]].
    change (bs "S_ISUID|") with (bs "S_ISUID" ++ bs "|"). change (bs "S_ISGID|") with (bs "S_ISGID" ++ bs "|"). change (bs "S_ISVTX|") with (bs "S_ISVTX" ++ bs "|").
    repeat (apply read_or_opt; [noin|vm_compute; reflexivity|]). apply read_oct. vm_compute. reflexivity. }
  destruct H as [(E & ->)|(E & _)].
  - cbn [app]. rewrite R. rewrite E, N.lor_0_l in P. rewrite P. reflexivity.
  - destruct (modetype_named _ _ E) as (Hw & H124 & Hv). destruct w as [|c w]; [congruence|].
    rewrite (read_or_app _ _ _ _ _ H124 Hv R). rewrite P. reflexivity.
Qed.
Lemma mode_shows st m : shows mode_names st (print_symbolic_mode_t st m) m.
Proof.
  assert (C : c_number (print_val_03o m) = Some (Z.of_N m)) by apply vtext_c, vtext_o.
  assert (L : lettered mode_names = true) by (vm_compute; reflexivity).
  unfold print_symbolic_mode_t, shows. destruct (N.land m S_IFMT =? 0) eqn:E; cbn [negb].
  - apply N.eqb_eq in E. pose proof (mode_text m [] (or_introl (conj E eq_refl))) as T. destruct st; [exact T|exact C|].
    right. eexists; eexists. split; [reflexivity|]. split; [exact C|exact T].
  - apply N.eqb_neq in E. destruct (xlookup modetypes (N.land m S_IFMT)) as [w|] eqn:X.
    + pose proof (mode_text m w (or_intror (conj X E))) as T. destruct st; [exact T|exact C|].
      right. eexists; eexists. split; [reflexivity|]. split; [exact C|exact T].
    + destruct st; [apply read_oct, L|exact C|left; exact C].
Qed.

(** * Open flags *)
Lemma NoDup_sum {A} (f : A -> nat) (l m : list A) : NoDup l -> incl l m -> (list_sum (map f l) <= list_sum (map f m))%nat.
Proof.
  intros ND. revert m. induction ND as [|a l Ha ND IH]; intros m I; [cbn; lia|].
  destruct (in_split a m (I a (or_introl eq_refl))) as (m1 & m2 & ->). specialize (IH (m1 ++ m2)).
  assert (I' : incl l (m1 ++ m2)). { intros x Hx. specialize (I x (or_intror Hx)). apply in_app_iff in I. apply in_app_iff. destruct I as [I|[I|I]]; [left; auto|subst; contradiction|right; auto]. }
  specialize (IH I'). rewrite map_app, list_sum_app in *. cbn [map]. change (list_sum (f a :: map f l)) with (f a + list_sum (map f l))%nat.
  change (list_sum (f a :: map f m2)) with (f a + list_sum (map f m2))%nat. lia.
Qed.
Definition wlen (e : N * list N) : nat := S (length (snd e)).
Lemma join_length l : (length (join_bar l) <= list_sum (map (fun w => S (length w)) l))%nat.
Proof.
  induction l as [|a l IH]; [cbn; lia|]. destruct l as [|b l]; [cbn; lia|].
  change (join_bar (a :: b :: l)) with (a ++ bs "|" ++ join_bar (b :: l)). rewrite !app_length.
  change (list_sum (map (fun w => S (length w)) (a :: b :: l))) with (S (length a) + list_sum (map (fun w => S (length w)) (b :: l)))%nat.
  change (length (bs "|")) with 1%nat. lia.
Qed.
Lemma tab_in l v s : In (v, Some s) (tab l) -> In (v, s) l.
Proof. unfold tab. intros I. apply in_map_iff in I as ((a & b) & E & I). cbn in E. congruence. Qed.
Lemma open_values v s : In (v, s) open_mode_flags_l -> value_of open_names s = Some v /\ ~ In 124 s /\ s <> [] /\ v <> 0.
Proof.
  intros I. cbn in I. repeat (destruct I as [I|I]; [injection I as <- <-; split; [vm_compute; reflexivity|]; split; [noin|split; discriminate]|]). destruct I.
Qed.
Lemma read_join names l (vs : list N) : Forall2 (fun w v => ~ In 124 w /\ value_of names w = Some v) l vs -> l <> [] ->
  read_or names (join_bar l) = Some (fold_right N.lor 0 vs).
Proof.
  intros F. induction F as [|w v l vs (H1 & H2) F IH]; [congruence|]. intros _. destruct F as [|w' v' l vs H' F].
  - cbn [join_bar fold_right]. rewrite N.lor_0_r. apply read_or_word; auto.
  - change (join_bar (w :: w' :: l)) with (w ++ bs "|" ++ join_bar (w' :: l)). cbn [fold_right]. apply read_or_app; auto. apply IH. discriminate.
Qed.
Lemma fold_ors l rest : fold_right N.lor 0 (map fst l ++ [rest]) = N.lor (ors l) rest.
Proof. induction l as [|e l IH]; cbn; [rewrite N.lor_0_r; reflexivity|]. rewrite IH. unfold ors. rewrite N.lor_assoc. reflexivity. Qed.
Lemma fold_ors0 l : fold_right N.lor 0 (map fst l) = ors l.
Proof. induction l as [|e l IH]; cbn; [reflexivity|]. rewrite IH. reflexivity. Qed.
Lemma pr_hex_length n : n < 2^64 -> (length (pr_hex n) <= 18)%nat.
Proof.
  intros H. unfold pr_hex. destruct (n =? 0); [cbn; lia|]. rewrite app_length. pose proof (pr_num_length 16 n 15 ltac:(lia)) as L.
  change (16 ^ N.of_nat 16) with (2^64) in L. specialize (L H). cbn [length]. change (length (bs "0x")) with 2%nat. lia.
Qed.
Lemma open_flags_text flags : flags <> 0 -> flags < 2^64 ->
  let text := printflags_ex flags None XABBREV FMT_X [open_mode_flags] in
  text <> [] /\ (length text <= 400)%nat /\ read_or open_names text = Some flags.
Proof.
  intros Hf Hl text. destruct (C36_flags_reading flags None XABBREV FMT_X [open_mode_flags]) as (ch & rest & R & E & _). fold text in E. rewrite E.
  assert (L : lettered open_names = true) by (vm_compute; reflexivity).
  destruct R as [Rn Ri Ro Rd Rp Rz _ _].
  assert (RL : rest < 2^64). { eapply N.le_lt_trans; [|exact Hl]. rewrite <- Ro. apply N.ldiff_le. apply N.bits_inj. intros i. rewrite N.ldiff_spec, N.lor_spec, N.bits_0. destruct (N.testbit rest i), (N.testbit (ors ch) i); reflexivity. }
  change (all_entries [open_mode_flags]) with (tab open_mode_flags_l ++ []) in Rn. rewrite app_nil_r in Rn.
  assert (Rn' : incl ch open_mode_flags_l). { intros e I. rewrite Forall_forall in Rn. specialize (Rn e I). destruct e as (v & s). apply tab_in. exact Rn. }
  unfold render. destruct ch as [|e0 ch0] eqn:Ech.
  - replace (flags =? 0) with false by lia. cbn [comment]. rewrite app_nil_r. change (sprint_xlat_val FMT_X flags) with (pr_hex flags).
    split; [destruct (hex_head flags) as (r & ->); discriminate|]. split; [pose proof (pr_hex_length flags Hl); lia|]. apply read_or_word; [apply hex_no_bar|apply value_hex; exact L].
  - rewrite <- Ech in *. assert (Hne : ch <> []) by (rewrite Ech; discriminate). clear e0 ch0 Ech.
    assert (ND : NoDup ch).
    { clear -Rp Rn'. induction Rp as [|e l F Rp IH]; constructor.
      - intros I. rewrite Forall_forall in F. specialize (F e I). rewrite N.land_diag in F. destruct e as (v & s). destruct (open_values v s (Rn' _ (or_introl eq_refl))) as (_ & _ & _ & X). cbn in F. congruence.
      - apply IH. intros x Hx. apply Rn'. right. exact Hx. }
    assert (F2 : Forall2 (fun w v => ~ In 124 w /\ value_of open_names w = Some v) (map snd ch) (map fst ch)).
    { clear -Rn'. induction ch as [|(v & s) l IH]; constructor.
      - destruct (open_values v s (Rn' _ (or_introl eq_refl))) as (H1 & H2 & _). auto.
      - apply IH. intros x Hx. apply Rn'. right. exact Hx. }
    assert (SL : (list_sum (map (fun w => S (length w)) (map snd ch)) <= 300)%nat).
    { rewrite map_map. eapply Nat.le_trans; [apply (NoDup_sum (fun e => S (length (snd e))) ch open_mode_flags_l ND Rn')|]. vm_compute. lia. }
    unfold tokens. split; [|split].
    + destruct ch as [|(v & s) l]; [congruence|]. destruct (open_values v s (Rn' _ (or_introl eq_refl))) as (_ & _ & X & _). cbn [map app snd].
      destruct s as [|c s]; [congruence|]. destruct (map snd l ++ _); cbn; discriminate.
    + eapply Nat.le_trans; [apply join_length|]. rewrite map_app, list_sum_app. destruct (rest =? 0); [cbn; lia|]. cbn [map list_sum fold_right]. change (sprint_xlat_val FMT_X rest) with (pr_hex rest).
      pose proof (pr_hex_length rest RL). lia.
    + rewrite <- Ro. destruct (rest =? 0) eqn:E0.
      * rewrite app_nil_r. rewrite (read_join _ _ _ F2) by (destruct ch; [congruence|discriminate]). rewrite fold_ors0. replace rest with 0 by lia. rewrite N.lor_0_r. reflexivity.
      * rewrite (read_join _ _ (map fst ch ++ [rest])); [rewrite fold_ors; reflexivity| |destruct ch; discriminate].
        apply Forall2_app; [exact F2|]. constructor; [|constructor]. split; [apply hex_no_bar|apply value_hex; exact L].
Qed.
Lemma access_mode flags : exists w, xlookup open_access_modes (N.land flags 3) = Some w /\ (length w <= 9)%nat /\ ~ In 124 w /\ value_of open_names w = Some (N.land flags 3).
Proof.
  assert (H : N.land flags 3 < 4). { change 3 with (N.ones 2). rewrite N.land_ones. apply N.mod_lt. discriminate. }
  set (a := N.land flags 3) in *. clearbody a.
  assert (D : a = 0 \/ a = 1 \/ a = 2 \/ a = 3) by lia.
  destruct D as [->|[->|[->| ->]]]; (eexists; split; [vm_compute; reflexivity|]; split; [vm_compute; lia|]; split; [noin|vm_compute; reflexivity]).
Qed.
Lemma access_rest flags : N.lor (N.land flags 3) (N.ldiff flags 3) = flags.
Proof. apply N.bits_inj. intros i. rewrite N.lor_spec, N.land_spec, N.ldiff_spec. destruct (N.testbit flags i), (N.testbit 3 i); reflexivity. Qed.
Lemma open_text flags : flags < 2^64 -> exists t, sprint_open_modes64 flags = Ok (bs "flags " ++ t) /\ read_or open_names t = Some flags /\ t <> [].
Proof.
  intros Hl. destruct (access_mode flags) as (w & Ew & Lw & Bw & Vw). unfold sprint_open_modes64. rewrite Ew.
  change (stpcpy 16 [] (bs "flags")) with (Ok (bs "flags")). cbn [rbind]. change (put 16 (bs "flags") 32) with (Ok (bs "flags ")). cbn [rbind].
  unfold stpcpy at 1. change (N.of_nat (length (bs "flags "))) with 6. replace (6 + N.of_nat (length w) <? 16) with true by lia. cbn [rbind].
  assert (Wne : w <> []). { intros ->. cbn in Vw. vm_compute in Vw. discriminate Vw. }
  pose proof (access_rest flags) as AR. destruct (N.ldiff flags 3 =? 0) eqn:E0.
  - exists w. split; [reflexivity|]. split; [|exact Wne]. rewrite (read_or_word _ _ _ Bw Vw). f_equal. apply N.eqb_eq in E0. rewrite E0, N.lor_0_r in AR. exact AR.
  - apply N.eqb_neq in E0. assert (HL : N.ldiff flags 3 < 2^64) by (eapply N.le_lt_trans; [|exact Hl]; apply N.ldiff_le; apply N.bits_inj; intros i; rewrite !N.ldiff_spec, N.bits_0; destruct (N.testbit flags i), (N.testbit 3 i); reflexivity).
    destruct (open_flags_text _ E0 HL) as (T1 & T2 & T3).
    pose proof (C36_sprintflags_same (bs "flags " ++ w) open_mode_flags (N.ldiff flags 3) 124 XABBREV FMT_X) as S0. cbv zeta in S0.
    set (t := printflags_ex (N.ldiff flags 3) None XABBREV FMT_X [open_mode_flags]) in *. rewrite S0; [|right; left; exact E0| |].
    + cbn [rbind]. destruct t as [|c t'] eqn:Et; [congruence|]. rewrite <- Et in *. exists (w ++ bs "|" ++ t). split; [|split].
      * rewrite <- app_assoc. reflexivity.
      * rewrite (read_or_app _ _ _ _ _ Bw Vw T3). rewrite AR. reflexivity.
      * destruct w; [congruence|discriminate].
    + repeat constructor; discriminate.
    + rewrite !app_length. change (length (bs "flags ")) with 6%nat. change (124 =? 0) with false. cbv iota. cbn [length]. lia.
Qed.
Lemma open_shows st flags : flags < 2^64 -> exists text, tprint_open_modes64 st flags = Ok text /\ shows open_names st text flags.
Proof.
  intros Hl. destruct (open_text flags Hl) as (t & E & R & Ne). unfold tprint_open_modes64. rewrite E. cbn [rbind].
  change (skipn 6 (bs "flags " ++ t)) with t. eexists. split; [reflexivity|].
  assert (C : c_number (pr_hex flags) = Some (Z.of_N flags)) by apply vtext_c, vtext_x.
  unfold print_xlat_ex, shows. destruct st; [exact R|exact C|]. right. exists (pr_hex flags), t. destruct t; [congruence|]. auto.
Qed.

(** * Device numbers *)
Lemma dev_small dev : dev < 2^64 -> N.lor (N.shiftr (N.land dev 0xfff00) 8) (N.shiftr (N.land dev 0xfffff00000000000) 32) < 2^32 /\
  N.lor (N.land dev 0xff) (N.shiftr (N.land dev 0xffffff00000) 12) < 2^32.
Proof.
  intros H. assert (LA : forall a m k, N.shiftr (N.land a m) k <= N.shiftr m k).
  { intros a m k. rewrite !N.shiftr_div_pow2. apply N.div_le_mono; [apply N.pow_nonzero; lia|]. apply N.ldiff_le. apply N.bits_inj. intros i. rewrite N.ldiff_spec, N.land_spec, N.bits_0. destruct (N.testbit a i), (N.testbit m i); reflexivity. }
  assert (LO : forall a b, a < 2^32 -> b < 2^32 -> N.lor a b < 2^32).
  { intros a b Ha Hb. destruct (N.eq_dec (N.lor a b) 0) as [->|Z]; [reflexivity|]. apply N.log2_lt_pow2; [lia|]. rewrite N.log2_lor.
    apply N.max_lub_lt; [destruct (N.eq_dec a 0) as [->|]; [reflexivity|apply N.log2_lt_pow2; lia]|destruct (N.eq_dec b 0) as [->|]; [reflexivity|apply N.log2_lt_pow2; lia]]. }
  split; apply LO.
  - eapply N.le_lt_trans; [apply LA|]. vm_compute. reflexivity.
  - eapply N.le_lt_trans; [apply LA|]. vm_compute. reflexivity.
  - pose proof (LA dev 0xff 0) as X. rewrite !N.shiftr_0_r in X. eapply N.le_lt_trans; [exact X|]. reflexivity.
  - eapply N.le_lt_trans; [apply LA|]. vm_compute. reflexivity.
Qed.
Lemma makedev_eq dev : dev < 2^64 -> makedev (dev_major dev) (dev_minor dev) = dev.
Proof.
  intros H. unfold makedev, dev_major, dev_minor, u32. destruct (dev_small dev H) as (S1 & S2). rewrite !N.mod_small by assumption. clear S1 S2.
  apply N.bits_inj. intros i. destruct (N.le_gt_cases 64 i) as [Hi|Hi].
  - replace (N.testbit dev i) with false.
    2:{ symmetry. destruct (N.eq_dec dev 0) as [->|]; [apply N.bits_0|]. apply N.bits_above_log2. assert (N.log2 dev < 64) by (apply N.log2_lt_pow2; lia). lia. }
    assert (MB : forall m k, m < 2^k -> k <= i -> N.testbit m i = false).
    { intros m k Hm Hk. destruct (N.eq_dec m 0) as [->|]; [apply N.bits_0|]. apply N.bits_above_log2. assert (N.log2 m < k) by (apply N.log2_lt_pow2; lia). lia. }
    rewrite !N.lor_spec, !N.shiftl_spec_high', !N.land_spec by lia.
    assert (X : forall m j k, m < 2^k -> k <= j -> N.testbit m j = false).
    { intros m j k Hm Hk. destruct (N.eq_dec m 0) as [->|]; [apply N.bits_0|]. apply N.bits_above_log2. assert (N.log2 m < k) by (apply N.log2_lt_pow2; lia). lia. }
    rewrite (X 0xfff (i - 8) 12), (X 0xfffff000 (i - 32) 32), (X 0xff i 8), (X 0xffffff00 (i - 12) 32) by (try reflexivity; lia).
    rewrite !andb_false_r. reflexivity.
  - assert (E : exists n, i = N.of_nat n /\ (n < 64)%nat) by (exists (N.to_nat i); lia). destruct E as (n & -> & Hn). clear Hi H.
    do 64 (destruct n as [|n]; [repeat (first [rewrite N.lor_spec|rewrite N.land_spec|rewrite N.shiftr_spec'|rewrite N.shiftl_spec_high' by (vm_compute; discriminate)|rewrite N.shiftl_spec_low by (vm_compute; reflexivity)]);
      repeat match goal with |- context [N.testbit dev ?k] => let k' := eval vm_compute in k in progress change k with k' end;
      repeat match goal with |- context [N.testbit (Npos ?m) ?k] => let v := eval vm_compute in (N.testbit (Npos m) k) in change (N.testbit (Npos m) k) with v end;
      repeat (rewrite ?andb_false_r, ?andb_true_r, ?orb_false_r, ?orb_false_l; cbn [andb orb]); reflexivity|]).
    lia.
Qed.
