(** C74: clock ticks. *)
From Verif Require Import Base Printf BitsModel RetModel RetSpec RetProofs XlatModel XlatText ModeProofs TickModel TickSpec.
Local Open Scope N_scope.

(** The integer logarithm is right for every 64-bit number but zero. *)
Theorem C74_ilog10 val : 0 < val -> val < 2^64 -> 10 ^ ilog10 val <= val < 10 ^ (ilog10 val + 1).
Proof.
  intros H0 H. unfold ilog10.
  assert (I : forall d p n r v, d = 10 ^ p -> 0 < v /\ v * 10 ^ r <= val < (v + 1) * 10 ^ r -> v < 10 ^ (p + n) -> p <= n \/ True ->
    exists v' r', ilog_iter d p (v, r) = (v', r') /\ (0 < v' /\ v' * 10 ^ r' <= val < (v' + 1) * 10 ^ r') /\ v' < 10 ^ N.max p n).
  { intros d p n r v -> (V0 & V1 & V2) V3 _. unfold ilog_iter. destruct (N.leb_spec (10 ^ p) v) as [L|L].
    - exists (v / 10 ^ p), (r + p). split; [reflexivity|]. assert (P : 0 < 10 ^ p) by (apply N.neq_0_lt_0, N.pow_nonzero; discriminate).
      assert (R : 0 < 10 ^ r) by (apply N.neq_0_lt_0, N.pow_nonzero; discriminate).
      rewrite N.pow_add_r in *. pose proof (N.div_mod v (10 ^ p) ltac:(lia)) as D. pose proof (N.mod_lt v (10 ^ p) ltac:(lia)) as M.
      set (q := v / 10 ^ p) in *. set (m := v mod 10 ^ p) in *. clearbody q m. set (a := 10 ^ p) in *. set (b := 10 ^ r) in *. clearbody a b.
      split; [split; [|split]|].
      + destruct (N.eq_dec q 0); [subst; nia|lia].
      + nia.
      + nia.
      + apply N.lt_le_trans with (10 ^ n); [|apply N.pow_le_mono_r; [discriminate|lia]]. nia.
    - exists v, r. split; [reflexivity|]. split; [auto|]. eapply N.lt_le_trans; [exact L|]. apply N.pow_le_mono_r; [discriminate|lia]. }
  destruct (I 10000000000000000 16 4 0 val eq_refl) as (v1 & r1 & -> & A1 & B1); [rewrite N.pow_0_r; lia|change (10 ^ (16 + 4)) with 100000000000000000000; lia|auto|].
  destruct (I 100000000 8 8 r1 v1 eq_refl A1 B1) as (v2 & r2 & -> & A2 & B2); [auto|].
  destruct (I 10000 4 4 r2 v2 eq_refl A2 B2) as (v3 & r3 & -> & A3 & B3); [auto|].
  destruct (I 100 2 2 r3 v3 eq_refl A3 B3) as (v4 & r4 & -> & A4 & B4); [auto|].
  destruct (I 10 1 1 r4 v4 eq_refl A4 B4) as (v5 & r5 & -> & (A5 & A6 & A7) & B5); [auto|].
  cbn [snd]. change (10 ^ N.max 1 1) with 10 in B5. rewrite N.pow_add_r, N.pow_1_r. set (b := 10 ^ r5) in *. clearbody b. clear I. split; nia.
Qed.
Lemma split_point_app a b : ~ In 46 a -> split_point (a ++ bs "." ++ b) = (a, Some b).
Proof.
  change (bs ".") with [46]. induction a as [|c a IH]; [reflexivity|]. intros H. cbn [app split_point]. cbn [app] in IH. rewrite IH by (intros I; apply H; right; exact I).
  replace (c =? 46) with false by (symmetry; apply N.eqb_neq; intros ->; apply H; left; reflexivity). reflexivity.
Qed.
Lemma pad_ne w n : exists c r, pr_pad 10 w n = c :: r.
Proof. unfold pr_pad. destruct (pr_num_head 10 n ltac:(lia)) as (c & r & -> & _). destruct (w - _)%nat; cbn; eauto. Qed.
Definition frac_body (neg : bool) (s : list N) : option (bool * N * N) :=
  match split_point s with
  | ((_ :: _) as a, Some ((_ :: _) as b)) =>
      olet x := rd_num 10 0 a in olet y := rd_num 10 0 b in Some (neg, x * 10 ^ N.of_nat (length b) + y, N.of_nat (length b))
  | _ => None
  end.
Lemma fraction_neg s : fraction (45 :: s) = frac_body true s.
Proof. reflexivity. Qed.
Lemma fraction_pos c s : c <> 45 -> fraction (c :: s) = frac_body false (c :: s).
Proof. intros H. unfold fraction. replace (c =? 45) with false by lia. reflexivity. Qed.
Lemma fraction_text (neg : bool) q r k : r < 10 ^ k ->
  exists m k', fraction ((if neg then bs "-" else []) ++ pr_num 10 q ++ bs "." ++ pr_pad 10 (N.to_nat k) r) = Some (neg, m, k') /\ m * 10 ^ k = (q * 10 ^ k + r) * 10 ^ k'.
Proof.
  intros H. set (b := pr_pad 10 (N.to_nat k) r).
  assert (F : fraction ((if neg then bs "-" else []) ++ pr_num 10 q ++ bs "." ++ b) = Some (neg, q * 10 ^ N.of_nat (length b) + r, N.of_nat (length b))).
  { destruct (pr_num_head 10 q ltac:(lia)) as (c & l & E & R).
    assert (X : fraction ((if neg then bs "-" else []) ++ pr_num 10 q ++ bs "." ++ b) = frac_body neg (pr_num 10 q ++ bs "." ++ b)).
    { destruct neg; [change (bs "-") with [45]; apply fraction_neg|]. rewrite E. cbn [app]. apply fraction_pos. lia. }
    rewrite X. unfold frac_body. clear X.
    rewrite split_point_app by (apply pr_num_not_in; lia). destruct (pad_ne (N.to_nat k) r) as (c' & l' & E'). fold b in E'.
    pose proof (pr_num_rd 10 q ltac:(lia)) as R1. pose proof (pr_pad_rd 10 (N.to_nat k) r ltac:(lia)) as R2. fold b in R2. rewrite E in *. rewrite E' in *. rewrite R1, R2. reflexivity. }
  eexists; eexists. split; [exact F|]. destruct (N.eq_dec k 0) as [->|K].
  - change (10 ^ 0) with 1 in *. replace r with 0 by lia. lia.
  - assert (L : length b = N.to_nat k). { apply pr_pad_length; [lia|rewrite N2Nat.id; exact H|lia]. } rewrite L, N2Nat.id. reflexivity.
Qed.

Lemma secs_text neg q r n : n ++ bs " /* " ++ (if neg : bool then bs "-" else []) ++ q ++ bs "." ++ r ++ bs " s" ++ bs " */" = n ++ bs " /* " ++ ((if neg then bs "-" else []) ++ q ++ bs "." ++ r) ++ bs " s */".
Proof. rewrite <- !app_assoc. reflexivity. Qed.
(** At a frequency that is a power of ten the seconds in the comment are exact. *)
Theorem C74_ticks st val k : ticks_text st (print_ticks st val (10 ^ Z.of_N k) k) (Z.of_N val) (10 ^ k).
Proof.
  assert (C : c_number (pr_num 10 val) = Some (Z.of_N val)) by apply vtext_c, vtext_u.
  unfold ticks_text, print_ticks. assert (P : (0 < 10 ^ Z.of_N k)%Z) by (apply Z.pow_pos_nonneg; lia).
  assert (E : Z.to_N (10 ^ Z.of_N k) = 10 ^ k). { change 10%Z with (Z.of_N 10). rewrite <- N2Z.inj_pow, N2Z.id. reflexivity. }
  destruct (N.eq_dec val 0) as [->|NZ].
  - left. split; [right; reflexivity|]. change (0 <? 0) with false. rewrite andb_false_r. destruct st; rewrite app_nil_r; exact C.
  - replace (0 <? 10 ^ Z.of_N k)%Z with true by lia. replace (0 <? val) with true by lia. cbn [andb]. rewrite E.
    assert (HF : 0 < 10 ^ k) by (apply N.neq_0_lt_0, N.pow_nonzero; discriminate).
    destruct (fraction_text false (val / 10 ^ k) (val mod 10 ^ k) k) as (m & k' & F & M); [apply N.mod_lt; lia|].
    assert (G : exists n t neg m k0, pr_num 10 val ++ bs " /* " ++ pr_num 10 (val / 10 ^ k) ++ bs "." ++ pr_pad 10 (N.to_nat k) (val mod 10 ^ k) ++ bs " s" ++ bs " */" = n ++ bs " /* " ++ t ++ bs " s */" /\
      c_number n = Some (Z.of_N val) /\ fraction t = Some (neg, m, k0) /\ (neg = true <-> (Z.of_N val < 0)%Z) /\ m * 10 ^ k = Z.abs_N (Z.of_N val) * 10 ^ k0).
    { eexists; eexists; exists false, m, k'. split; [apply (secs_text false)|]. split; [exact C|]. split; [exact F|]. split; [split; [discriminate|lia]|].
      rewrite M, Zabs2N.id. rewrite (N.mul_comm (val / 10 ^ k)), <- N.div_mod by lia. reflexivity. }
    destruct st; [right|left; split; [left; reflexivity|rewrite app_nil_r; exact C]|right]; (split; [discriminate|exact G]).
Qed.
Theorem C74_ticks_d st val k : 0 < k -> ticks_text st (print_ticks_d st val (10 ^ Z.of_N k) k) val (10 ^ k).
Proof.
  intros K. assert (C : c_number (pr_z val) = Some val) by apply vtext_c, vtext_z.
  unfold ticks_text, print_ticks_d. set (f := (10 ^ Z.of_N k)%Z).
  assert (E : f = Z.of_N (10 ^ k)) by (unfold f; rewrite N2Z.inj_pow; reflexivity).
  assert (P : 10 <= 10 ^ k). { replace k with (k - 1 + 1) by lia. rewrite N.pow_add_r, N.pow_1_r. assert (0 < 10 ^ (k - 1)) by (apply N.neq_0_lt_0, N.pow_nonzero; discriminate). lia. }
  clearbody f. destruct (Z.eq_dec val 0) as [->|NZ].
  - left. split; [right; reflexivity|]. change (0 =? 0)%Z with true. rewrite andb_false_r. destruct st; rewrite app_nil_r; exact C.
  - replace (1 <? f)%Z with true by lia. replace (val =? 0)%Z with false by lia. cbn [andb negb].
    set (q := Z.abs_N (Z.quot val f)). set (r := Z.abs_N (Z.rem val f)).
    assert (QR : q * 10 ^ k + r = Z.abs_N val /\ r < 10 ^ k).
    { unfold q, r. pose proof (Z.quot_rem' val f) as QR. pose proof (Z.rem_bound_abs val f ltac:(lia)) as B. pose proof (Z.rem_sign_nz val f) as S1.
      destruct (Z.le_gt_cases 0 val) as [V|V].
      - pose proof (Z.quot_pos val f V ltac:(lia)). pose proof (Z.rem_nonneg val f ltac:(lia) V). split; nia.
      - assert (Q : (Z.quot val f <= 0)%Z). { rewrite <- (Z.opp_involutive val), Z.quot_opp_l by lia. pose proof (Z.quot_pos (- val) f ltac:(lia) ltac:(lia)). lia. }
        pose proof (Z.rem_nonpos val f ltac:(lia) ltac:(lia)). split; nia. }
    destruct QR as (Q1 & Q2). destruct (fraction_text (val <? 0)%Z q r k Q2) as (m & k' & F & M).
    assert (G : exists n t neg m k0, pr_z val ++ bs " /* " ++ (if (val <? 0)%Z then bs "-" else []) ++ pr_num 10 q ++ bs "." ++ pr_pad 10 (N.to_nat k) r ++ bs " s" ++ bs " */" = n ++ bs " /* " ++ t ++ bs " s */" /\
      c_number n = Some val /\ fraction t = Some (neg, m, k0) /\ (neg = true <-> (val < 0)%Z) /\ m * 10 ^ k = Z.abs_N val * 10 ^ k0).
    { eexists; eexists; exists (val <? 0)%Z, m, k'. split; [apply secs_text|]. split; [exact C|]. split; [exact F|]. split; [apply Z.ltb_lt|]. rewrite M, Q1. reflexivity. }
    destruct st; [right|left; split; [left; reflexivity|rewrite app_nil_r; exact C]|right]; (split; [discriminate|exact G]).
Qed.
(** clock_t values: exact when the clock frequency is a power of ten up to 10^9. *)
Theorem C74_clock st val k : k <= 9 -> ticks_text st (print_clock_t st (10 ^ Z.of_N k) val) (Z.of_N val) (10 ^ k).
Proof.
  intros K. unfold print_clock_t. cbv zeta. assert (P : (0 < 10 ^ Z.of_N k)%Z) by (apply Z.pow_pos_nonneg; lia).
  replace (10 ^ Z.of_N k =? 0)%Z with false by lia. replace (0 <? 10 ^ Z.of_N k)%Z with true by lia.
  assert (E : Z.to_N (10 ^ Z.of_N k) = 10 ^ k). { change 10%Z with (Z.of_N 10). rewrite <- N2Z.inj_pow, N2Z.id. reflexivity. }
  assert (L : ilog10 (Z.to_N (10 ^ Z.of_N k)) = k).
  { rewrite E. assert (KK : k = 0 \/ k = 1 \/ k = 2 \/ k = 3 \/ k = 4 \/ k = 5 \/ k = 6 \/ k = 7 \/ k = 8 \/ k = 9) by lia.
    repeat (destruct KK as [->|KK]; [vm_compute; reflexivity|]). subst. vm_compute. reflexivity. }
  rewrite L. replace (N.min k 9) with k by lia. apply C74_ticks.
Qed.
(** Whatever the frequency, the number of ticks comes first. *)
Theorem C74_clock_number st clk val : exists r, print_clock_t st clk val = pr_num 10 val ++ r /\ c_number (pr_num 10 val) = Some (Z.of_N val) /\
  (r = [] \/ exists t, r = bs " /* " ++ t ++ bs " */").
Proof.
  unfold print_clock_t, print_ticks. cbv zeta. eexists. split; [reflexivity|]. split; [apply vtext_c, vtext_u|].
  assert (X : forall a b c d e : list N, exists t, a ++ b ++ c ++ d ++ e ++ bs " */" = a ++ t ++ bs " */").
  { intros a b c d e. exists (b ++ c ++ d ++ e). rewrite <- !app_assoc. reflexivity. }
  destruct st; [|left; reflexivity|]; (destruct ((0 <? _)%Z && (0 <? val)); [right; apply X|left; reflexivity]).
Qed.
(** At 1024 ticks a second, as on Alpha, the fraction is wrong. *)
Theorem C74_clock_refuted : exists val, ~ ticks_text XABBREV (print_clock_t XABBREV 1024 val) (Z.of_N val) 1024.
Proof.
  exists 1. intros [(H & _)|(_ & n & t & neg & m & k & E & _ & F & _ & M)]; [destruct H; discriminate|].
  assert (T : print_clock_t XABBREV 1024 1 = bs "1" ++ bs " /* " ++ bs "0.001" ++ bs " s */") by (vm_compute; reflexivity). rewrite T in E.
  change (bs "1" ++ bs " /* " ++ bs "0.001" ++ bs " s */") with ([49] ++ [32; 47; 42; 32] ++ [48; 46; 48; 48; 49] ++ [32; 115; 32; 42; 47]) in E.
  change (bs " /* ") with [32; 47; 42; 32] in E. change (bs " s */") with [32; 115; 32; 42; 47] in E.
  cbn [app] in E. destruct n as [|c0 n]; [discriminate E|]. cbn [app] in E. injection E as <- E.
  destruct n as [|c1 n].
  - cbn [app] in E. injection E as E. change ([48; 46; 48; 48; 49; 32; 115; 32; 42; 47]) with ([48; 46; 48; 48; 49] ++ [32; 115; 32; 42; 47]) in E. apply app_inv_tail in E. subst t. vm_compute in F. injection F as <- <- <-. vm_compute in M. discriminate M.
  - let rec go := (cbn [app] in E; first [discriminate E | injection E; clear E; intros E _; destruct n as [|? n]; [cbn [app] in E; discriminate E | go]]) in go.
Qed.

Print Assumptions C74_ilog10.
Print Assumptions C74_ticks.
Print Assumptions C74_ticks_d.
Print Assumptions C74_clock.
Print Assumptions C74_clock_number.
Print Assumptions C74_clock_refuted.
Example ex_clock : print_clock_t XABBREV 100 12345 = bs "12345 /* 123.45 s */".
Proof. vm_compute. reflexivity. Qed.
Example ex_ticks_d : print_ticks_d XABBREV (-5) 1000 3 = bs "-5 /* -0.005 s */".
Proof. vm_compute. reflexivity. Qed.
