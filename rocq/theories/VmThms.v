(** C106: how the memory mapping calls are shown. *)
From Verif Require Import Base Printf InfoModel XlatModel XlatSpec XlatProofs XlatText VmModel VmSpec FlagText.
From Verif Require BitsModel ExtModel TvalModel TvalSpec TvalThms DateThms InfoThms InfoSpec CapSpec CapThms NumaModel NumaSpec NumaThms FutexThms.
Import BitsModel.
Local Open Scope N_scope.

(** ---- the flags of mmap ---- *)
Lemma nodup_check (l : list N) : forallb (fun k => (length (filter (N.eqb k) l) =? 1)%nat) l = true -> NoDup l.
Proof.
  intros H. apply (NoDup_count_occ' N.eq_dec). intros x X. rewrite forallb_forall in H. specialize (H x X). apply Nat.eqb_eq in H. rewrite <- H. clear.
  induction l as [|a l IH]; [reflexivity|]. cbn [count_occ filter]. destruct (N.eq_dec a x) as [-> |NE]; [rewrite N.eqb_refl; cbn [length]; lia|]. destruct (N.eqb_spec x a); [congruence|exact IH].
Qed.
Definition low (v : N) : N := N.land (N.ldiff v 15) (2 ^ 26 - 1).
Lemma low_bits v i : N.testbit (low v) i = N.testbit v i && negb (i <? 4) && (i <? 26).
Proof.
  unfold low. change 15 with (N.ones 4). change (2 ^ 26 - 1) with (N.ones 26). rewrite N.land_spec, N.ldiff_spec.
  destruct (N.ltb_spec i 4), (N.ltb_spec i 26); [|lia| |]; repeat first [rewrite N.ones_spec_low by lia | rewrite N.ones_spec_high by lia]; reflexivity.
Qed.
Lemma low_value v : low v = v mod 2 ^ 26 - v mod 2 ^ 4.
Proof.
  assert (E : low v = N.shiftl (N.shiftr (v mod 2 ^ 26) 4) 4).
  { apply N.bits_inj. intros i. rewrite low_bits. destruct (N.ltb_spec i 4) as [L|L].
    - rewrite N.shiftl_spec_low by exact L. rewrite andb_false_r. reflexivity.
    - rewrite N.shiftl_spec_high' by exact L. rewrite N.shiftr_spec'. replace (i - 4 + 4) with i by lia. destruct (N.ltb_spec i 26).
      + rewrite N.mod_pow2_bits_low by assumption. rewrite !andb_true_r. reflexivity.
      + rewrite N.mod_pow2_bits_high by assumption. rewrite andb_false_r. reflexivity. }
  rewrite E, N.shiftl_mul_pow2, N.shiftr_div_pow2. change (2 ^ 26) with 67108864. change (2 ^ 4) with 16. clear. lia.
Qed.
Lemma huge_value v : u32 (N.land (N.ldiff v 15) (u32 (63 * 2 ^ 26))) = huge v * 2 ^ 26.
Proof.
  assert (E : N.land (N.ldiff v 15) (u32 (63 * 2 ^ 26)) = huge v * 2 ^ 26).
  { unfold huge. rewrite <- N.shiftr_div_pow2, <- (N.shiftl_mul_pow2 (_ mod _)). change (u32 (63 * 2 ^ 26)) with (N.shiftl (N.ones 6) 26). change 15 with (N.ones 4). apply N.bits_inj. intros i. rewrite N.land_spec, N.ldiff_spec. destruct (N.ltb_spec i 26) as [L|L].
    - rewrite !N.shiftl_spec_low by exact L. apply andb_false_r.
    - rewrite !N.shiftl_spec_high' by exact L. rewrite (N.ones_spec_high 4) by lia. rewrite andb_true_r. destruct (N.ltb_spec (i - 26) 6) as [S|S].
      + rewrite N.ones_spec_low, N.mod_pow2_bits_low, N.shiftr_spec' by assumption. replace (i - 26 + 26) with i by lia. apply andb_true_r.
      + rewrite N.ones_spec_high, N.mod_pow2_bits_high by assumption. apply andb_false_r. }
  rewrite E. unfold u32. apply N.mod_small. unfold huge. pose proof (N.mod_lt (v / 2 ^ 26) (2 ^ 6) ltac:(discriminate)) as M. change (2 ^ 26) with 67108864 in *. change (2 ^ 6) with 64 in *. change (2 ^ 32) with 4294967296. clear -M. lia.
Qed.
Definition kind (k : N) : list N := printxvals_ex k (Some (bs "MAP_???")) XABBREV FMT_X [mmap_flags].
Lemma kind_eq k : k < 16 -> kind k = match type_name k with Some n => n | None => pr_hex k ++ bs " /* MAP_??? */" end.
Proof.
  intros K. assert (X : beqs (kind k) (match type_name k with Some n => n | None => pr_hex k ++ bs " /* MAP_??? */" end) = true).
  { revert K. apply (FutexThms.all_below (fun k => beqs (kind k) (match type_name k with Some n => n | None => pr_hex k ++ bs " /* MAP_??? */" end)) 16). vm_compute. reflexivity. }
  apply beqs_eq in X. exact X.
Qed.
Lemma mmap_tab v : tab (low v) (data mmap_flags) map_bits.
Proof.
  assert (S : forall w i, N.testbit w i = true -> N.testbit (low v) i = false -> N.land (low v) w <> w).
  { intros w i W L E. rewrite <- E, N.land_spec, L in W. discriminate W. }
  assert (L : forall i, i < 4 \/ 26 <= i -> N.testbit (low v) i = false).
  { intros i I. rewrite low_bits. destruct (N.ltb_spec i 4), (N.ltb_spec i 26); cbn [negb]; rewrite ?andb_false_r; try reflexivity. lia. }
  unfold mmap_flags, map_bits. cbn [data].
  apply T_skip; [right; apply (S 1 0); [reflexivity|apply L; lia]|]. apply T_skip; [right; apply (S 2 1); [reflexivity|apply L; lia]|].
  apply T_skip; [right; apply (S 3 0); [reflexivity|apply L; lia]|]. apply T_skip; [right; apply (S 8 3); [reflexivity|apply L; lia]|].
  apply (T_bit _ 4). apply (T_bit _ 5). apply (T_bit _ 6). apply (T_bit _ 7). apply (T_bit _ 14). apply (T_bit _ 15). apply (T_bit _ 16). apply (T_bit _ 8). apply (T_bit _ 11). apply (T_bit _ 12).
  apply T_skip; [left; reflexivity|]. apply (T_bit _ 13). apply (T_bit _ 17). apply (T_bit _ 18). apply (T_bit _ 19).
  apply T_skip; [right; apply (S 0x4000000 26); [reflexivity|apply L; lia]|]. apply (T_bit _ 20). apply T_nil.
Qed.
Lemma map_nodup : NoDup (map fst map_bits). Proof. apply nodup_check. vm_compute. reflexivity. Qed.
Lemma map_fst_range k : In k (map fst map_bits) -> 4 <= k < 26.
Proof. intros I. unfold map_bits in I. cbn [map fst] in I. repeat (destruct I as [<- |I]; [lia|]). destruct I. Qed.
Lemma low_marks v : marks map_bits (low v) = marks map_bits v.
Proof. apply marks_ext. intros k K. apply map_fst_range in K. rewrite low_bits. replace (k <? 4) with false by (symmetry; apply N.ltb_ge; lia). replace (k <? 26) with true by (symmetry; apply N.ltb_lt; lia). rewrite !andb_true_r. reflexivity. Qed.
Lemma low_names v : low v <> 0 -> printflags_ex (low v) None XABBREV FMT_X [mmap_flags] = CapSpec.bar (marks map_bits v ++ tail (unnamed map_bits (low v))).
Proof.
  intros Z. rewrite flags_eq by exact Z. destruct (tab_sel (low v) _ _ (mmap_tab v) map_nodup (low v) (N.land_diag _)) as [-> ->]. rewrite low_marks. destruct (marks map_bits v) as [|a r] eqn:M; [|reflexivity].
  assert (U : unnamed map_bits (low v) = low v).
  { apply N.bits_inj. intros i. rewrite unnamed_bits. destruct (existsb (N.eqb i) (map fst map_bits)) eqn:X; [|apply andb_true_r]. apply existsb_exists in X as (k & K & EK). apply N.eqb_eq in EK. subst k.
    apply in_map_iff in K as ([k s] & <- & K). cbn [fst]. destruct (N.testbit (low v) k) eqn:T; [|reflexivity]. assert (I : In s (marks map_bits (low v))) by (apply marks_in; exists k; auto). rewrite low_marks, M in I. destruct I. }
  rewrite U. unfold tail. apply N.eqb_neq in Z. rewrite Z. cbn [comment app CapSpec.bar]. apply app_nil_r.
Qed.
Definition hpart (v : N) : list (list N) := if huge v =? 0 then [] else [TvalModel.udec (huge v) ++ bs "<<MAP_HUGE_SHIFT"].
Definition mtoks (v : N) : list (list N) := kind (v mod 16) :: marks map_bits v ++ tail (unnamed map_bits (low v)) ++ hpart v.
Lemma low_none v : low v = 0 -> marks map_bits v ++ tail (unnamed map_bits (low v)) = [].
Proof. intros Z. rewrite <- low_marks, Z. reflexivity. Qed.
Lemma low_some v : low v <> 0 -> marks map_bits v ++ tail (unnamed map_bits (low v)) <> [].
Proof.
  intros Z E. apply app_eq_nil in E as [M T]. unfold tail in T. destruct (N.eqb_spec (unnamed map_bits (low v)) 0) as [U|U]; [|discriminate]. apply Z. apply N.bits_inj_0. intros i.
  destruct (N.testbit (low v) i) eqn:B; [|reflexivity]. assert (X : N.testbit (unnamed map_bits (low v)) i = false) by (rewrite U; apply N.bits_0). rewrite unnamed_bits, B in X. cbn [andb] in X. apply negb_false_iff in X. apply existsb_exists in X as (k & K & EK). apply N.eqb_eq in EK. subst k.
  apply in_map_iff in K as ([k s] & <- & K). assert (I : In s (marks map_bits (low v))) by (apply marks_in; exists k; auto). rewrite low_marks, M in I. destruct I.
Qed.
Lemma bar_app a l : l <> [] -> CapSpec.bar (a :: l) = a ++ bs "|" ++ CapSpec.bar l.
Proof. destruct l; [contradiction|reflexivity]. Qed.
Lemma bar_apps l r : l <> [] -> r <> [] -> CapSpec.bar (l ++ r) = CapSpec.bar l ++ bs "|" ++ CapSpec.bar r.
Proof.
  intros L R. induction l as [|a l IH]; [contradiction|]. destruct l as [|b l]; [cbn [app]; rewrite bar_app by exact R; reflexivity|]. change ((a :: b :: l) ++ r) with (a :: ((b :: l) ++ r)).
  rewrite bar_app by discriminate. rewrite IH by discriminate. rewrite (bar_app a (b :: l)) by discriminate. rewrite <- !app_assoc. reflexivity.
Qed.
Lemma mmap_flags_eq st v : print_mmap_flags st v = match st with XABBREV => CapSpec.bar (mtoks v) | XRAW => pr_hex v | XVERBOSE => pr_hex v ++ bs " /* " ++ CapSpec.bar (mtoks v) ++ bs " */" end.
Proof.
  assert (E : kind (N.land v 15) ++ (if low v =? 0 then [] else bs "|" ++ printflags_ex (low v) None XABBREV FMT_X [mmap_flags]) ++
    (if huge v * 2 ^ 26 =? 0 then [] else bs "|" ++ TvalModel.udec (huge v * 2 ^ 26 / 2 ^ 26) ++ bs "<<" ++ bs "MAP_HUGE_SHIFT") = CapSpec.bar (mtoks v)).
  { unfold mtoks. change 15 with (N.ones 4). rewrite N.land_ones. change (2 ^ 4) with 16.
    assert (H : (if huge v * 2 ^ 26 =? 0 then [] else bs "|" ++ TvalModel.udec (huge v * 2 ^ 26 / 2 ^ 26) ++ bs "<<" ++ bs "MAP_HUGE_SHIFT") = match hpart v with [] => [] | l => bs "|" ++ CapSpec.bar l end).
    { unfold hpart. destruct (N.eqb_spec (huge v) 0) as [Z|Z]; [rewrite Z; reflexivity|]. rewrite N.div_mul by discriminate. replace (huge v * 2 ^ 26 =? 0) with false; [reflexivity|]. symmetry. apply N.eqb_neq. change (2 ^ 26) with 67108864. clear -Z. lia. }
    rewrite H. destruct (N.eqb_spec (low v) 0) as [Z|Z].
    - rewrite (app_assoc (marks _ _)), low_none by exact Z. cbn [app]. destruct (hpart v) as [|a l]; [rewrite app_nil_r; reflexivity|]. rewrite (bar_app (kind _)) by discriminate. reflexivity.
    - rewrite low_names by exact Z. pose proof (low_some v Z) as S. rewrite (app_assoc (marks _ _)). destruct (hpart v) as [|a l].
      + rewrite !app_nil_r. rewrite (bar_app (kind _)) by exact S. reflexivity.
      + rewrite (bar_app (kind _)); [|intros X; apply app_eq_nil in X as [X _]; exact (S X)]. rewrite (bar_apps (marks _ _ ++ _) (a :: l)) by (exact S || discriminate). rewrite <- !app_assoc. reflexivity. }
  rewrite <- E. unfold print_mmap_flags. cbv zeta. rewrite huge_value. change (2 ^ 32 - 1 - u32 (63 * 2 ^ 26)) with (2 ^ 26 - 1). fold (low v). fold (kind (N.land v 15)). destruct st; reflexivity.
Qed.
Lemma map_rest_eq v : v < 2 ^ 32 -> map_rest v = unnamed map_bits (low v).
Proof. intros V. unfold map_rest. rewrite N.div_small by exact V. rewrite N.mul_0_r, N.add_0_r, low_value. reflexivity. Qed.

(** Flags of 32 bits are shown as they are. *)
Theorem C106_flags_partial : forall st v, v < 2 ^ 32 -> map_flags_text st v (print_mmap_flags st v).
Proof.
  intros st v V. exists (pr_hex v), (kind (v mod 16)), (tail (map_rest v)), (hpart v). split; [apply NumaThms.hex_ok|]. split; [apply tail_ok|]. split; [|split].
  - pose proof (N.mod_lt v 16 ltac:(discriminate)) as K. rewrite kind_eq by exact K. destruct (type_name (v mod 16)) eqn:T; [reflexivity|]. exists (pr_hex (v mod 16)). split; [|reflexivity]. apply CapThms.hex_ok. intros Z. rewrite Z in T. discriminate T.
  - unfold hpart. destruct (N.eqb_spec (huge v) 0) as [Z|Z]; [left; auto|right]. split; [exact Z|]. exists (TvalModel.udec (huge v)). split; [apply TvalThms.udec_number|reflexivity].
  - cbv zeta. rewrite map_rest_eq by exact V. rewrite mmap_flags_eq. unfold mtoks. destruct st; reflexivity.
Qed.
Print Assumptions C106_flags_partial.
(** The upper half of the argument is dropped. *)
Theorem C106_flags_refuted : (forall v, print_mmap_flags XABBREV v = print_mmap_flags XABBREV (v mod 2 ^ 32)) /\ ~ (forall st v, v < 2 ^ 64 -> map_flags_text st v (print_mmap_flags st v)).
Proof.
  split.
  - intros v. rewrite !mmap_flags_eq. unfold mtoks. assert (B : forall i, i < 32 -> N.testbit (v mod 2 ^ 32) i = N.testbit v i) by (intros i I; apply N.mod_pow2_bits_low, I).
    assert (L : low (v mod 2 ^ 32) = low v).
    { apply N.bits_inj. intros i. rewrite !low_bits. destruct (N.ltb_spec i 26); [rewrite B by lia; reflexivity|rewrite !andb_false_r; reflexivity]. }
    rewrite L. assert (H : huge (v mod 2 ^ 32) = huge v) by (unfold huge; change (2 ^ 32) with 4294967296; change (2 ^ 26) with 67108864; change (2 ^ 6) with 64; clear; lia).
    assert (M : v mod 2 ^ 32 mod 16 = v mod 16) by (change (2 ^ 32) with 4294967296; clear; lia). unfold hpart. rewrite H, M. rewrite <- (low_marks (v mod 2 ^ 32)), L, low_marks. reflexivity.
  - intros H. specialize (H XABBREV (2 ^ 40 + 2) ltac:(reflexivity)). destruct H as (x & k & y & h & _ & R & K & G & E). change (type_name ((2 ^ 40 + 2) mod 16)) with (Some (bs "MAP_PRIVATE")) in K. cbv iota in K. subst k.
    destruct R as [[R _]|(_ & z & (d & -> & _) & ->)]; [vm_compute in R; discriminate R|]. assert (P : print_mmap_flags XABBREV (2 ^ 40 + 2) = bs "MAP_PRIVATE") by (vm_compute; reflexivity). rewrite P in E. clear P G.
    change (marks map_bits (2 ^ 40 + 2)) with (@nil (list N)) in E. cbn [app] in E. rewrite bar_app in E by discriminate. apply (f_equal (@length N)) in E. rewrite !app_length in E. cbn [length bs] in E. lia.
Qed.
Print Assumptions C106_flags_refuted.

Definition is_map (x : list N) : Prop := exists r, x = 77 :: r.
Lemma names_head v : Forall is_map (marks map_bits v).
Proof.
  apply Forall_forall. intros s I. apply marks_in in I as (k & I & _). unfold map_bits in I. repeat (destruct I as [I|I]; [apply (f_equal snd) in I; cbn [snd] in I; rewrite <- I; eexists; reflexivity|]). destruct I.
Qed.
Lemma names_clean v : Forall (fun x => ~ In 124 x /\ x <> []) (marks map_bits v).
Proof.
  assert (C : forallb (fun b => FutexThms.no_bar (snd b)) map_bits = true) by (vm_compute; reflexivity). rewrite forallb_forall in C. apply Forall_forall. intros s I. apply marks_in in I as (k & I & _). apply FutexThms.no_bar_ok. exact (C _ I).
Qed.
Lemma udec_chars n c : In c (TvalModel.udec n) -> 48 <= c <= 57.
Proof. intros I. pose proof (TvalThms.number_digits _ _ (TvalThms.udec_number n)) as F. rewrite Forall_forall in F. exact (F c I). Qed.
Lemma udec_ne n : TvalModel.udec n <> [].
Proof. destruct (TvalThms.udec_number n) as [X _]. exact X. Qed.
Lemma mtoks_ok v : Forall (fun x => ~ In 124 x /\ x <> []) (mtoks v).
Proof.
  unfold mtoks. constructor.
  { apply FutexThms.no_bar_ok. pose proof (N.mod_lt v 16 ltac:(discriminate)) as K. revert K. apply (FutexThms.all_below (fun k => FutexThms.no_bar (kind k)) 16). vm_compute. reflexivity. }
  apply Forall_app. split; [apply names_clean|]. apply Forall_app. split.
  - unfold tail. destruct (_ =? 0); constructor; [|constructor]. split; [apply CapThms.hex_not, plain124|]. destruct (CapThms.hex_48 (unnamed map_bits (low v))) as (q & ->). discriminate.
  - unfold hpart. destruct (_ =? 0); constructor; [|constructor]. split; [|intros X; apply app_eq_nil in X as [X _]; exact (udec_ne _ X)]. intros I. apply in_app_or in I as [I|I]; [apply udec_chars in I; lia|]. cbn in I. repeat destruct I as [I|I]; try discriminate I. exact I.
Qed.
Lemma not_map_digit c r : 48 <= c <= 57 -> ~ is_map (c :: r).
Proof. intros D (q & E). injection E as E _. lia. Qed.
Lemma rest_not_map v : Forall (fun s => ~ is_map s) (tail (unnamed map_bits (low v)) ++ hpart v).
Proof.
  apply Forall_app. split.
  - unfold tail. destruct (_ =? 0); constructor; [|constructor]. destruct (CapThms.hex_48 (unnamed map_bits (low v))) as (q & ->). apply not_map_digit. lia.
  - unfold hpart. destruct (_ =? 0); constructor; [|constructor]. pose proof (udec_ne (huge v)) as X. pose proof (udec_chars (huge v)) as D. destruct (TvalModel.udec (huge v)) as [|c r]; [contradiction|]. apply not_map_digit. apply D. left. reflexivity.
Qed.
Definition no_lt (x : list N) : Prop := ~ In 60 x.
Lemma plain60 : plain 60. Proof. unfold plain. lia. Qed.
Lemma rest_cut v v' : tail (unnamed map_bits (low v)) ++ hpart v = tail (unnamed map_bits (low v')) ++ hpart v' -> unnamed map_bits (low v) = unnamed map_bits (low v') /\ huge v = huge v'.
Proof.
  assert (T : forall n, Forall no_lt (tail n)) by (intros n; unfold tail; destruct (n =? 0); constructor; [apply CapThms.hex_not, plain60|constructor]).
  assert (H : forall w, Forall (fun s => ~ no_lt s) (hpart w)).
  { intros w. unfold hpart. destruct (_ =? 0); constructor; [|constructor]. intros X. apply X. apply in_or_app. right. left. reflexivity. }
  intros E. apply (CapThms.cut_at no_lt) in E; [|apply T|apply T|apply H|apply H]. destruct E as [E1 E2]. split.
  - unfold tail in E1. destruct (N.eqb_spec (unnamed map_bits (low v)) 0), (N.eqb_spec (unnamed map_bits (low v')) 0); try discriminate E1; [congruence|]. apply (f_equal (hd [])) in E1. apply NumaThms.hex_same, E1.
  - unfold hpart in E2. destruct (N.eqb_spec (huge v) 0), (N.eqb_spec (huge v') 0); try discriminate E2; [congruence|]. apply (f_equal (hd [])) in E2. cbn [hd] in E2. apply app_inv_tail in E2.
    pose proof (TvalThms.udec_number (huge v)) as U. rewrite E2 in U. exact (TvalThms.number_fun _ _ _ U (TvalThms.udec_number (huge v'))).
Qed.
Lemma kind_inj a b : a < 16 -> b < 16 -> kind a = kind b -> a = b.
Proof. apply FutexThms.different. vm_compute. reflexivity. Qed.
Lemma mtoks_inj v v' : v < 2 ^ 32 -> v' < 2 ^ 32 -> mtoks v = mtoks v' -> v = v'.
Proof.
  intros V V' E. unfold mtoks in E. pose proof (f_equal (hd []) E) as E0. pose proof (f_equal (@tl _) E) as E1. clear E. cbn [hd tl] in *.
  apply kind_inj in E0; [|apply N.mod_lt; discriminate|apply N.mod_lt; discriminate]. apply (CapThms.cut_at is_map) in E1; [|apply names_head|apply names_head|apply rest_not_map|apply rest_not_map].
  destruct E1 as [E1 E2]. apply rest_cut in E2 as [E2 E3]. apply N.bits_inj. intros i. destruct (N.ltb_spec i 4) as [I|I].
  { change 16 with (2 ^ 4) in E0. rewrite <- (N.mod_pow2_bits_low v 4), <- (N.mod_pow2_bits_low v' 4), E0 by exact I. reflexivity. }
  destruct (N.ltb_spec i 26) as [J|J].
  { destruct (existsb (N.eqb i) (map fst map_bits)) eqn:X.
    - apply existsb_exists in X as (k & K & EK). apply N.eqb_eq in EK. subst k. revert K. apply marks_inj; [|exact E1]. apply CapThms.distinct_nodup. vm_compute. reflexivity.
    - pose proof (unnamed_bits map_bits (low v) i) as P. rewrite E2, unnamed_bits, !low_bits, X in P. apply N.ltb_ge in I. apply N.ltb_lt in J. rewrite I, J in P. cbn [negb] in P. rewrite !andb_true_r in P. symmetry. exact P. }
  destruct (N.ltb_spec i 32) as [K|K].
  { unfold huge in E3. rewrite <- !N.shiftr_div_pow2 in E3. pose proof (f_equal (fun x => N.testbit x (i - 26)) E3) as P. cbn beta in P. rewrite !N.mod_pow2_bits_low, !N.shiftr_spec' in P by lia. replace (i - 26 + 26) with i in P by lia. exact P. }
  rewrite <- (N.mod_small v (2 ^ 32)), <- (N.mod_small v' (2 ^ 32)) by assumption. rewrite !N.mod_pow2_bits_high by exact K. reflexivity.
Qed.
(** Two sets of flags of 32 bits that are shown alike are the same. *)
Theorem C106_flags_lossless_partial : forall st v v', v < 2 ^ 32 -> v' < 2 ^ 32 -> print_mmap_flags st v = print_mmap_flags st v' -> v = v'.
Proof.
  intros st v v' V V' E. rewrite !mmap_flags_eq in E. destruct st.
  - rewrite !CapThms.bar_join in E. apply join_inj in E; [|apply mtoks_ok|apply mtoks_ok]. exact (mtoks_inj v v' V V' E).
  - apply NumaThms.hex_same, E.
  - apply (split_at 32) in E; [apply NumaThms.hex_same, E|apply CapThms.hex_not, plain32|apply CapThms.hex_not, plain32|apply CapThms.hex_head32|apply CapThms.hex_head32].
Qed.
Print Assumptions C106_flags_lossless_partial.

(** ---- protections and the flags of mremap ---- *)
Theorem C106_prot : forall st v, prot_text st v (print_prot st v).
Proof.
  intros st v. unfold prot_text, print_prot. apply (flags_ok st mmap_prot (Some (bs "PROT_NONE")) (bs "PROT_???") prot_bits v); [|reflexivity| |discriminate].
  - intros g. unfold mmap_prot, prot_bits. cbn [data]. apply (T_bit _ 0). apply (T_bit _ 1). apply (T_bit _ 2). apply (T_bit _ 3). apply (T_bit _ 24). apply (T_bit _ 25). apply T_nil.
  - apply nodup_check. vm_compute. reflexivity.
Qed.
Print Assumptions C106_prot.
Lemma mremap_flags_ok st v : flags_text st mremap_bits None (bs " /* MREMAP_??? */") v (printflags_ex v (Some (bs "MREMAP_???")) st FMT_X [mremap_flags]).
Proof.
  apply (flags_ok st mremap_flags None (bs "MREMAP_???") mremap_bits v); [| | |discriminate].
  - intros g. unfold mremap_flags, mremap_bits. cbn [data]. apply (T_bit _ 0). apply (T_bit _ 1). apply (T_bit _ 2). apply T_nil.
  - unfold mremap_flags. cbn [data]. split; [reflexivity|]. intros g ->. split; [reflexivity|]. destruct st; reflexivity.
  - apply nodup_check. vm_compute. reflexivity.
Qed.

(** ---- the calls ---- *)
Lemma int_ok a : int_value a (int_of a).
Proof.
  unfold int_value, int_of, TvalModel.sx, u32. change (8 * Z.of_nat 4)%Z with 32%Z. change (2 ^ 31)%Z with 2147483648%Z. change (2 ^ 32)%Z with 4294967296%Z. change (2 ^ 32) with 4294967296. change (4294967296 / 2)%Z with 2147483648%Z.
  pose proof (N.mod_lt a 4294967296 ltac:(discriminate)) as M. destruct (Z.ltb_spec (Z.of_N (a mod 4294967296)) 2147483648); lia.
Qed.
Lemma print_mmap_ok st fd a off : nth 3 a 0 < 2 ^ 32 -> mmap_text st fd a off (print_mmap st fd a off).
Proof.
  intros V. exists (TvalModel.printaddr (nth 0 a 0)), (TvalModel.udec (nth 1 a 0)), (print_prot st (nth 2 a 0)), (print_mmap_flags st (nth 3 a 0)), (fd (int_of (nth 4 a 0))), (int_of (nth 4 a 0)), (pr_hex off).
  split; [apply TvalThms.printaddr_ok|]. split; [apply TvalThms.udec_number|]. split; [apply C106_prot|]. split; [apply C106_flags_partial, V|]. split; [apply int_ok|]. split; [reflexivity|]. split; [apply NumaThms.hex_ok|].
  unfold print_mmap, args. rewrite NumaThms.args_commas. reflexivity.
Qed.
(** mmap, with the offset in bytes, in pages and in units of 4096 bytes. *)
Theorem C106_mmap_partial : forall st fd a, nth 3 a 0 < 2 ^ 32 ->
  mmap_text st fd a (nth 5 a 0) (mmap st fd a) /\
  (forall pagesize, mmap_text st fd a (nth 5 a 0 * pagesize mod 2 ^ 64) (mmap_pgoff st fd pagesize a)) /\
  mmap_text st fd a (nth 5 a 0 * 4096 mod 2 ^ 64) (mmap_4koff st fd a).
Proof.
  intros st fd a V. split; [apply print_mmap_ok, V|]. split; [intros p; apply (print_mmap_ok st fd a _ V)|]. apply (print_mmap_ok st fd a _ V).
Qed.
Print Assumptions C106_mmap_partial.
(** The old call has its arguments in memory; if they cannot be read, their address is shown. *)
Theorem C106_old_mmap_partial : forall st fd m w a0 b, (w = 4 \/ w = 8)%nat -> length b = (w * 6)%nat ->
  let arg i := InfoSpec.number_at b (i * w) w in
  (TvalSpec.bytes_at m a0 b -> arg 3%nat < 2 ^ 32 -> mmap_text st fd (map arg [0; 1; 2; 3; 4; 5]%nat) (arg 5%nat) (old_mmap st fd m w a0)) /\
  (TvalSpec.unreadable m a0 (w * 6) -> TvalSpec.address (old_mmap st fd m w a0) a0).
Proof.
  intros st fd m w a0 b W L arg. split.
  - intros M V. unfold old_mmap, indirect. rewrite <- L. rewrite (TvalThms.umoven_bytes m b a0 M).
    assert (E : map (fun i => ld b (i * w) w) (seq 0 6) = map arg [0; 1; 2; 3; 4; 5]%nat) by (apply map_ext; intros i; apply InfoThms.ld_number).
    rewrite E. apply (print_mmap_ok st fd (map arg [0; 1; 2; 3; 4; 5]%nat) (arg 5%nat)). exact V.
  - intros U. unfold old_mmap, indirect. rewrite (TvalThms.umoven_none m (w * 6) a0 U). apply TvalThms.printaddr_ok.
Qed.
Print Assumptions C106_old_mmap_partial.
Theorem C106_mprotect : forall st a, exists p n r k z, TvalSpec.address p (nth 0 a 0) /\ TvalSpec.number n (nth 1 a 0) /\ prot_text st (nth 2 a 0) r /\ int_value (nth 3 a 0) z /\ TvalSpec.integer k z /\
  do_mprotect st false a = NumaSpec.commas [p; n; r] /\ do_mprotect st true a = NumaSpec.commas [p; n; r; k] /\ munmap a = NumaSpec.commas [p; n].
Proof.
  intros st a. exists (TvalModel.printaddr (nth 0 a 0)), (TvalModel.udec (nth 1 a 0)), (print_prot st (nth 2 a 0)), (TvalModel.sdec (int_of (nth 3 a 0))), (int_of (nth 3 a 0)).
  split; [apply TvalThms.printaddr_ok|]. split; [apply TvalThms.udec_number|]. split; [apply C106_prot|]. split; [apply int_ok|]. split; [apply DateThms.sdec_integer|].
  unfold do_mprotect, munmap, args. rewrite !NumaThms.args_commas. split; [reflexivity|]. split; reflexivity.
Qed.
Print Assumptions C106_mprotect.
(** The new address is shown if the call uses it: with MREMAP_FIXED (bit 1) or MREMAP_DONTUNMAP (bit 2), both of which need MREMAP_MAYMOVE (bit 0). *)
Theorem C106_mremap : forall st a, exists p n n' f q, TvalSpec.address p (nth 0 a 0) /\ TvalSpec.number n (nth 1 a 0) /\ TvalSpec.number n' (nth 2 a 0) /\
  flags_text st mremap_bits None (bs " /* MREMAP_??? */") (nth 3 a 0) f /\ TvalSpec.address q (nth 4 a 0) /\
  let bit := N.testbit (nth 3 a 0) in
  mremap st a = NumaSpec.commas ([p; n; n'; f] ++ if (bit 1 || bit 2) && bit 0 then [q] else []).
Proof.
  intros st a. exists (TvalModel.printaddr (nth 0 a 0)), (TvalModel.udec (nth 1 a 0)), (TvalModel.udec (nth 2 a 0)), (printflags_ex (nth 3 a 0) (Some (bs "MREMAP_???")) st FMT_X [mremap_flags]), (TvalModel.printaddr (nth 4 a 0)).
  split; [apply TvalThms.printaddr_ok|]. split; [apply TvalThms.udec_number|]. split; [apply TvalThms.udec_number|]. split; [apply mremap_flags_ok|]. split; [apply TvalThms.printaddr_ok|]. cbv zeta.
  unfold mremap, args. cbv zeta. rewrite NumaThms.args_commas. generalize (nth 3 a 0). intros v.
  assert (E : negb (N.land v (N.lor 2 4) =? 0) && negb (N.land v 1 =? 0) = (N.testbit v 1 || N.testbit v 2) && N.testbit v 0).
  { destruct v as [|v]; [reflexivity|]. destruct v as [[[v|v|]|[v|v|]|]|[[v|v|]|[v|v|]|]|]; reflexivity. }
  rewrite E. reflexivity.
Qed.
Print Assumptions C106_mremap.
Theorem C106_remap_file_pages_partial : forall st a, nth 4 a 0 < 2 ^ 32 -> exists p n r g f, TvalSpec.address p (nth 0 a 0) /\ TvalSpec.number n (nth 1 a 0) /\ prot_text st (nth 2 a 0) r /\
  TvalSpec.number g (nth 3 a 0) /\ map_flags_text st (nth 4 a 0) f /\ remap_file_pages st a = NumaSpec.commas [p; n; r; g; f].
Proof.
  intros st a V. exists (TvalModel.printaddr (nth 0 a 0)), (TvalModel.udec (nth 1 a 0)), (print_prot st (nth 2 a 0)), (TvalModel.udec (nth 3 a 0)), (print_mmap_flags st (nth 4 a 0)).
  split; [apply TvalThms.printaddr_ok|]. split; [apply TvalThms.udec_number|]. split; [apply C106_prot|]. split; [apply TvalThms.udec_number|]. split; [apply C106_flags_partial, V|].
  unfold remap_file_pages, args. rewrite NumaThms.args_commas. reflexivity.
Qed.
Print Assumptions C106_remap_file_pages_partial.

(** ---- mincore ---- *)
Lemma pages_ok len s : let p := 2 ^ s in let k := len / p + (if N.land len (p - 1) =? 0 then 0 else 1) in len <= k * p < len + p.
Proof.
  intros p k. unfold k. assert (M : N.land len (p - 1) = len mod p) by (unfold p; apply FutexThms.land_mod). rewrite M. assert (P : p <> 0) by (unfold p; apply N.pow_nonzero; discriminate).
  pose proof (N.div_mod len p P) as D. pose proof (N.mod_lt len p P) as L. clearbody p. clear M k. destruct (N.eqb_spec (len mod p) 0) as [Z|Z]; [rewrite Z in D; nia|]. nia.
Qed.
(** One number for each page that the range touches: its lowest bit. *)
Theorem C106_mincore : forall e a s k b, ExtModel.pagesize (NumaModel.o e) = 2 ^ s -> let p := 2 ^ s in let len := nth 1 a 0 in let vec := nth 2 a 0 in
  len <= k * p < len + p -> k <> 0 -> vec <> 0 -> vec + k < 2 ^ 64 -> ExtModel.verbose (NumaModel.o e) = true -> ExtModel.failed (NumaModel.o e) = false -> (NumaModel.abbrev e = true -> k < 2 ^ 32) ->
  TvalSpec.bytes_at (NumaModel.m e) vec b -> length b = N.to_nat k ->
  let c := NumaSpec.count (NumaModel.abbrev e) (ExtModel.max_strlen (NumaModel.o e)) k in
  exists q n v, TvalSpec.address q (nth 0 a 0) /\ TvalSpec.number n len /\
    NumaSpec.array_text (fun i t => t = if N.testbit (nth i b 0) 0 then bs "1" else bs "0") c (NumaSpec.cut c (N.to_nat k)) v /\
    mincore e a = NumaSpec.commas [q; n; v].
Proof.
  intros e a s k b PS p len vec K K0 A0 F V NF AB M L c. exists (TvalModel.printaddr (nth 0 a 0)), (TvalModel.udec len), (NumaModel.print_array e print_mincore_entry vec k (N.of_nat 1)).
  split; [apply TvalThms.printaddr_ok|]. split; [apply TvalThms.udec_number|]. split.
  - apply NumaThms.array_text_of with (pf := print_mincore_entry) (b := b) (esz := 1%nat) (j := N.to_nat k).
    + rewrite L. lia.
    + unfold c, NumaSpec.count. destruct (NumaModel.abbrev e); lia.
    + intros i I. unfold print_mincore_entry. rewrite NumaThms.nth_piece by lia. replace (i * 1 + 0)%nat with i by lia. change 1 with (N.ones 1). rewrite N.land_ones. change (2 ^ 1) with 2. rewrite <- N.bit0_mod. destruct (N.testbit (nth i b 0) 0); reflexivity.
    + unfold c. apply NumaThms.array_whole; try assumption; try lia.
  - unfold mincore. cbv zeta. rewrite PS. fold p len vec. pose proof (pages_ok len s) as Q. cbv zeta in Q. fold p in Q.
    assert (P : p <> 0) by (unfold p; apply N.pow_nonzero; discriminate).
    assert (E : len / p + (if N.land len (p - 1) =? 0 then 0 else 1) = k) by (revert Q; generalize (len / p + (if N.land len (p - 1) =? 0 then 0 else 1)); intros x X; clear -X K P; nia).
    rewrite E. cbn [NumaSpec.commas]. rewrite <- !app_assoc. reflexivity.
Qed.
Print Assumptions C106_mincore.

Example C106_example :
  mmap XABBREV (fun z => TvalModel.sdec z) [0; 8192; 3; 0x22; 2 ^ 64 - 1; 0] = bs "NULL, 8192, PROT_READ|PROT_WRITE, MAP_PRIVATE|MAP_ANONYMOUS, -1, 0" /\
  mmap XVERBOSE (fun z => TvalModel.sdec z) [0x1000; 4096; 0; 0x54040012 ; 3; 0x2000] =
    bs "0x1000, 4096, 0 /* PROT_NONE */, 0x54040012 /* MAP_PRIVATE|MAP_FIXED|MAP_HUGETLB|21<<MAP_HUGE_SHIFT */, 3, 0x2000" /\
  print_mmap_flags XABBREV 0x4200004 = bs "0x4 /* MAP_??? */|0x200000|1<<MAP_HUGE_SHIFT" /\
  mremap XABBREV [0x1000; 4096; 8192; 3; 0x5000] = bs "0x1000, 4096, 8192, MREMAP_MAYMOVE|MREMAP_FIXED, 0x5000" /\
  mremap XABBREV [0x1000; 4096; 8192; 0x18; 0x5000] = bs "0x1000, 4096, 8192, 0x18 /* MREMAP_??? */" /\
  mincore (NumaThms.ex_env [1; 254; 3]) [0x10000; 8193; 4096] = bs "0x10000, 8193, [1, 0, ...]" /\
  old_mmap XABBREV (fun z => TvalModel.sdec z) (NumaThms.ex_mem ([0; 0; 0; 0] ++ [0; 16; 0; 0] ++ [1; 0; 0; 0] ++ [1; 0; 0; 0] ++ [3; 0; 0; 0] ++ [0; 32; 0; 0])) 4 4096 = bs "NULL, 4096, PROT_READ, MAP_SHARED, 3, 0x2000".
Proof. repeat split; vm_compute; reflexivity. Qed.
