(** Proofs about the floating-point branch of parse_ts. *)
From Coq Require Import QArith Qabs Qround Qpower Lqa.
From Verif Require Import Base TimeModel TimeSpec FtsModel FtsSpec.
Local Open Scope Q_scope.

(** ---- doubles ---- *)
Lemma p2_pos e : 0 < Qpower 2 e.
Proof. apply Qpower_0_lt. reflexivity. Qed.
Lemma p2_nat (n : Z) : (0 <= n)%Z -> Qpower 2 n == inject_Z (2 ^ n).
Proof.
  intros H. change 2 with (inject_Z 2). rewrite <- Zpower_Qpower by exact H. reflexivity.
Qed.
Lemma p2_inv n : Qpower 2 n * Qpower 2 (- n) == 1.
Proof. rewrite <- Qpower_plus by discriminate. rewrite Z.add_opp_diag_r. reflexivity. Qed.
Lemma double_z n : (Z.abs n <= 2^53)%Z -> double (inject_Z n).
Proof. intros H. exists n, 0%Z. split; [lia|]. ring. Qed.
Lemma double_s n e : (Z.abs n <= 2^53 -> - 1074 <= e -> double (inject_Z n * Qpower 2 e)%Q)%Z.
Proof. intros H E. exists n, e. split; [lia|reflexivity]. Qed.
Lemma double_eq x y : x == y -> double x -> double y.
Proof. intros E (m & e & H & X). exists m, e. split; [exact H|]. rewrite <- E. exact X. Qed.

Section Rounding.
Context (M : fpu) (I : ieee M).
Lemma fl_exact x : double x -> fl M x == x.
Proof.
  intros D. pose proof (i_nearest M I x x D) as H. setoid_replace (x - x) with 0 in H by ring. change (Qabs 0) with 0 in H.
  apply Qabs_Qle_condition in H. lra.
Qed.
Lemma fl_le x f : double f -> x <= f -> fl M x <= f.
Proof.
  intros D L. pose proof (i_nearest M I x f D) as H. rewrite (Qabs_pos (f - x)) in H by lra. apply Qabs_Qle_condition in H. lra.
Qed.
Lemma fl_ge x f : double f -> f <= x -> f <= fl M x.
Proof.
  intros D L. pose proof (i_nearest M I x f D) as H. rewrite (Qabs_neg (f - x)) in H by lra. apply Qabs_Qle_condition in H. lra.
Qed.
Lemma fl_within x f d : double f -> - d <= f - x <= d -> - d <= fl M x - x <= d.
Proof.
  intros D L. pose proof (i_nearest M I x f D) as H. apply Qabs_Qle_condition. eapply Qle_trans; [exact H|]. apply Qabs_Qle_condition. exact L.
Qed.
(** rounding up to [b] happens only in the upper half of the gap below it *)
Lemma fl_up x a b : double a -> a < b -> x < b -> b <= fl M x -> (a + b) * (1#2) <= x.
Proof.
  intros D AB XB F. destruct (Qlt_le_dec x a) as [L|L].
  - pose proof (fl_le x a D (Qlt_le_weak _ _ L)). lra.
  - pose proof (i_nearest M I x a D) as H. rewrite (Qabs_neg (a - x)) in H by lra. rewrite (Qabs_pos (fl M x - x)) in H by lra. lra.
Qed.
End Rounding.

Lemma floor_bounds x : inject_Z (Qfloor x) <= x < inject_Z (Qfloor x) + 1.
Proof. split; [apply Qfloor_le|]. pose proof (Qlt_floor x) as H. rewrite inject_Z_plus in H. exact H. Qed.
(** a multiple of 2^-e within half of that *)
Lemma near_multiple x e B : (0 <= e <= 1074)%Z -> 0 <= x -> x * Qpower 2 e <= inject_Z B -> (B <= 2^53)%Z ->
  exists f, double f /\ - (1#2) <= (f - x) * Qpower 2 e <= 1#2.
Proof.
  intros E X0 XB HB. pose proof (p2_pos e) as P. set (m := Qfloor (x * Qpower 2 e + (1#2))). pose proof (floor_bounds (x * Qpower 2 e + (1#2))) as [F1 F2]. fold m in F1, F2.
  exists (inject_Z m * Qpower 2 (- e)). split.
  - apply double_s; [|lia]. assert (0 <= m)%Z.
    { assert (0 <= x * Qpower 2 e) by (apply Qmult_le_0_compat; lra). assert (inject_Z (-1) < inject_Z m) as L by (change (inject_Z (-1)) with (-1#1); lra). rewrite <- Zlt_Qlt in L. lia. }
    assert (inject_Z m < inject_Z (B + 1)) as L by (rewrite inject_Z_plus; change (inject_Z 1) with 1; lra). rewrite <- Zlt_Qlt in L. lia.
  - setoid_replace ((inject_Z m * Qpower 2 (- e) - x) * Qpower 2 e) with (inject_Z m * (Qpower 2 e * Qpower 2 (- e)) - x * Qpower 2 e) by ring. rewrite p2_inv. lra.
Qed.

Lemma trunc_pos x : 0 <= x -> inject_Z (trunc x) <= x < inject_Z (trunc x) + 1 /\ (0 <= trunc x)%Z.
Proof.
  intros H. assert (E : trunc x = Qfloor x). { unfold trunc, Qfloor. destruct x as [n d]. cbn. apply Z.quot_div_nonneg; [|lia]. unfold Qle in H. cbn in H. lia. }
  rewrite E. split; [apply floor_bounds|]. change 0%Z with (Qfloor 0). apply Qfloor_resp_le. exact H.
Qed.
Lemma trunc_small x : - (1) < x < 0 -> trunc x = 0%Z.
Proof.
  intros [A B]. unfold trunc. destruct x as [n d]. unfold Qlt in A, B. cbn in A, B |- *. pose proof (Z.quot_opp_l (- n) (Z.pos d) ltac:(lia)) as Q. rewrite Z.opp_involutive in Q. rewrite Q. rewrite Z.quot_small by lia. reflexivity.
Qed.

(** the double below [u], which has [k] binary digits before the point *)
Lemma pred_gap y u k : (- 1000 <= k <= 100)%Z -> double y -> y < inject_Z u -> Qpower 2 (k - 1) + Qpower 2 (k - 53) <= inject_Z u ->
  (exists c, inject_Z u == inject_Z c * Qpower 2 (k - 53)) -> y <= inject_Z u - Qpower 2 (k - 53).
Proof.
  intros K (m & e & [M1 M2] & Y) L UB (c & UC). pose proof (p2_pos (k - 53)) as P. destruct (Z_lt_le_dec e (k - 53)) as [LE|LE].
  - apply Qle_trans with (Qpower 2 (k - 1)); [|lra]. rewrite Y. apply Qle_trans with (inject_Z (2^53) * Qpower 2 e).
    + apply Qmult_le_compat_r; [|apply Qlt_le_weak, p2_pos]. rewrite <- Zle_Qle. lia.
    + rewrite <- (p2_nat 53) by lia. rewrite <- Qpower_plus by discriminate. apply Qpower_le_compat_l; [lia|discriminate].
  - set (j := (e - (k - 53))%Z). assert (J : e = (j + (k - 53))%Z) by lia. assert (J0 : (0 <= j)%Z) by lia. clearbody j.
    assert (YJ : y == inject_Z (m * 2 ^ j) * Qpower 2 (k - 53)). { rewrite Y, J, Qpower_plus by discriminate. rewrite inject_Z_mult, <- p2_nat by exact J0. ring. }
    rewrite YJ, UC in *. assert (C : inject_Z (m * 2 ^ j) < inject_Z c) by (apply Qmult_lt_r with (z := Qpower 2 (k - 53)); assumption).
    rewrite <- Zlt_Qlt in C. setoid_replace (inject_Z c * Qpower 2 (k - 53) - Qpower 2 (k - 53)) with ((inject_Z c - 1) * Qpower 2 (k - 53)) by ring.
    apply Qmult_le_compat_r; [|lra]. change (inject_Z c - 1) with (inject_Z c - inject_Z 1). unfold Qminus. rewrite <- inject_Z_opp, <- inject_Z_plus, <- Zle_Qle. lia.
Qed.

(** ---- splitting into seconds and nanoseconds ---- *)
Record scaling (sc un e1 k : Z) : Prop := {
  sc_prod : (sc * un = 1000000000)%Z;
  sc_div : (1000000000 / sc = un)%Z;
  sc_low : (2 ^ e1 <= sc <= 2 ^ (e1 + 1))%Z;
  sc_e1 : (0 <= e1 <= 100)%Z;
  sc_un : (1 <= un <= 1000000000)%Z;
  sc_k : (- 1000 <= k <= 100)%Z;
  sc_gap : Qpower 2 (k - 1) + Qpower 2 (k - 53) <= inject_Z un;
  sc_mult : exists c, inject_Z un == inject_Z c * Qpower 2 (k - 53);
  sc_step : 1 # 16777216 < inject_Z sc * Qpower 2 (k - 53)
}.
Lemma scalings u : (u = 1000000000 \/ u = 1000000 \/ u = 1000 \/ u = 1)%Z -> exists un e1 k, scaling u un e1 k.
Proof.
  intros [->|[->|[->| ->]]].
  - exists 1%Z, 29%Z, 0%Z. split; try (vm_compute; lia || reflexivity || discriminate || (split; discriminate)). exists (2^53)%Z. reflexivity.
  - exists 1000%Z, 19%Z, 10%Z. split; try (vm_compute; lia || reflexivity || discriminate || (split; discriminate)). exists (1000 * 2^43)%Z. reflexivity.
  - exists 1000000%Z, 9%Z, 20%Z. split; try (vm_compute; lia || reflexivity || discriminate || (split; discriminate)). exists (1000000 * 2^33)%Z. reflexivity.
  - exists 1000000000%Z, 0%Z, 30%Z. split; try (vm_compute; lia || reflexivity || discriminate || (split; discriminate)). exists (1000000000 * 2^23)%Z. reflexivity.
Qed.

Lemma split_ok M sc un e1 k q : ieee M -> scaling sc un e1 k -> 0 <= q -> q * inject_Z sc <= 9007199254740992 ->
  exists t, split_float M (fl M q) sc = Ok t /\ normal t /\ (0 <= sec t)%Z /\ - (5#2) <= inject_Z (ns t) - q * inject_Z sc <= 5#2.
Proof.
  intros I SC Q0 QB. destruct SC as [PR DV LO E1 UN K GAP MUL STEP].
  assert (SC1 : 1 <= inject_Z sc) by (change 1 with (inject_Z 1); rewrite <- Zle_Qle; pose proof (Z.pow_pos_nonneg 2 e1); lia).
  assert (UN1 : 1 <= inject_Z un <= 1000000000) by (split; [change 1 with (inject_Z 1)|change 1000000000 with (inject_Z 1000000000)]; rewrite <- Zle_Qle; lia).
  assert (PRQ : inject_Z sc * inject_Z un == 1000000000) by (rewrite <- inject_Z_mult, PR; reflexivity).
  assert (D53 : double 9007199254740992) by (apply (double_z (2^53)); lia).
  assert (D0 : double 0) by (apply (double_z 0); lia).
  (* x *)
  set (x := fl M q). assert (X0 : 0 <= x) by (apply fl_ge; auto).
  assert (QX : q <= 9007199254740992) by nra. assert (X53 : x <= 9007199254740992) by (apply fl_le; auto).
  assert (XQ : -(1) <= (x - q) * inject_Z sc <= 1).
  { assert (QE : q * Qpower 2 e1 <= inject_Z (2^53)).
    { rewrite (p2_nat e1) by lia. assert (inject_Z (2 ^ e1) <= inject_Z sc) by (rewrite <- Zle_Qle; lia). change (inject_Z (2^53)) with 9007199254740992. nra. }
    destruct (near_multiple q e1 (2^53) ltac:(lia) Q0 QE ltac:(lia)) as (f & DF & NF). pose proof (p2_pos e1) as PP.
    assert (SCU : inject_Z sc <= 2 * Qpower 2 e1). { rewrite (p2_nat e1) by lia. change 2 with (inject_Z 2). rewrite <- inject_Z_mult, <- Zle_Qle, <- Z.pow_succ_r by lia. unfold Z.succ. lia. }
    assert (FD : - / (2 * Qpower 2 e1) <= f - q <= / (2 * Qpower 2 e1)).
    { assert (IV : / (2 * Qpower 2 e1) == (1#2) * / Qpower 2 e1) by (field; lra). rewrite IV. split.
      - apply Qmult_le_r with (z := Qpower 2 e1); [exact PP|]. setoid_replace (- ((1 # 2) * / Qpower 2 e1) * Qpower 2 e1) with (- (1#2)) by (field; lra). lra.
      - apply Qmult_le_r with (z := Qpower 2 e1); [exact PP|]. setoid_replace ((1 # 2) * / Qpower 2 e1 * Qpower 2 e1) with (1#2) by (field; lra). lra. }
    pose proof (fl_within M I q f _ DF FD) as [W1 W2]. fold x in W1, W2. set (h := / (2 * Qpower 2 e1)) in *.
    assert (HS : 0 < h /\ h * inject_Z sc <= 1).
    { split; [apply Qinv_lt_0_compat; lra|]. unfold h. apply Qmult_le_r with (z := 2 * Qpower 2 e1); [lra|]. setoid_replace (/ (2 * Qpower 2 e1) * inject_Z sc * (2 * Qpower 2 e1)) with (inject_Z sc) by (field; lra). lra. }
    destruct HS. split; nra. }
  (* seconds *)
  unfold split_float. rewrite DV. set (v := x / inject_Z un). assert (VX : v * inject_Z un == x) by (unfold v; field; lra).
  assert (V0 : 0 <= v) by (unfold v; apply Qle_shift_div_l; lra). set (w := fl M v). assert (W0 : 0 <= w) by (apply fl_ge; auto).
  assert (VB : v <= 16777216).
  { assert (v * 1000000000 <= 9007199254740993); [|lra]. rewrite <- PRQ. setoid_replace (v * (inject_Z sc * inject_Z un)) with ((v * inject_Z un) * inject_Z sc) by ring. rewrite VX. lra. }
  assert (WB : w <= 16777216) by (apply fl_le; auto; apply (double_z 16777216); lia).
  destruct (trunc_pos w W0) as [[S1 S2] S0]. set (s := trunc w) in *.
  assert (SB : (s <= 16777216)%Z) by (rewrite Zle_Qle; change (inject_Z 16777216) with 16777216; lra).
  assert (VS : v < inject_Z s + 1).
  { destruct (Qlt_le_dec v (inject_Z s + 1)) as [|L]; [assumption|]. exfalso. assert (inject_Z s + 1 <= w); [|lra]. apply fl_ge; auto. change (inject_Z s + 1) with (inject_Z s + inject_Z 1). rewrite <- inject_Z_plus. apply double_z. lia. }
  assert (SV : inject_Z s <= v + (1 # 1073741824)).
  { destruct (Qlt_le_dec v (inject_Z s)) as [L|L]; [|lra].
    pose proof (fl_up M I v (inject_Z s - (1 # 536870912)) (inject_Z s)) as U. assert (DD : double (inject_Z s - (1 # 536870912))).
    { exists (s * 2^29 - 1)%Z, (-29)%Z. split; [lia|]. unfold Zminus. rewrite inject_Z_plus, inject_Z_mult. change (inject_Z (2^29)) with 536870912. change (inject_Z (- (1))) with (-1#1). change (Qpower 2 (-29)) with (1 # 536870912). ring. }
    specialize (U DD ltac:(lra) L S1). lra. }
  (* the product *)
  assert (SUQ : inject_Z (s * un) == inject_Z s * inject_Z un) by (rewrite inject_Z_mult; reflexivity).
  assert (SU : (0 <= s * un <= 2^53)%Z).
  { split; [apply Z.mul_nonneg_nonneg; lia|]. assert (inject_Z (s * un) < inject_Z (2^53 + 1)) as L; [|rewrite <- Zlt_Qlt in L; lia].
    rewrite SUQ. change (inject_Z (2^53 + 1)) with 9007199254740993. assert (inject_Z s * inject_Z un <= (v + (1 # 1073741824)) * inject_Z un) by (apply Qmult_le_compat_r; lra).
    assert ((v + (1 # 1073741824)) * inject_Z un == x + (1 # 1073741824) * inject_Z un) by (rewrite <- VX; ring). lra. }
  replace ((- 2 ^ 63 <=? s) && (s <? 2 ^ 63))%Z with true by lia. cbn [negb]. replace ((- 2 ^ 63 <=? s * un) && (s * un <? 2 ^ 63))%Z with true by lia. cbn [negb].
  set (p := fl M (inject_Z (s * un))). assert (P : p == inject_Z (s * un)) by (apply fl_exact; auto; apply double_z; lia).
  (* the rest *)
  assert (R1 : x - p <= x) by (rewrite P; assert (0 <= inject_Z (s * un)) by (change 0 with (inject_Z 0); rewrite <- Zle_Qle; lia); lra).
  assert (R0 : x - p == (v - inject_Z s) * inject_Z un) by (rewrite P, SUQ; rewrite <- VX; ring).
  assert (R2 : - x <= x - p).
  { destruct (Z.eq_dec s 0) as [Z0|NZ]; [rewrite P, Z0; change (inject_Z (0 * un)) with 0; lra|]. assert (1 <= inject_Z s) by (change 1 with (inject_Z 1); rewrite <- Zle_Qle; lia). rewrite R0, <- VX. nra. }
  assert (DY : double (x - p)).
  { destruct (i_double M I q) as (m & e & [M1 M2] & XM). fold x in XM. destruct (Z_lt_le_dec e 0) as [NE|NE].
    - set (j := (- e)%Z). assert (J : e = (- j)%Z) by lia. assert (J0 : (0 <= j)%Z) by lia. clearbody j. subst e.
      assert (YM : x - p == inject_Z (m - s * un * 2 ^ j) * Qpower 2 (- j)).
      { rewrite P, XM. unfold Zminus. rewrite inject_Z_plus, inject_Z_opp, (inject_Z_mult (s * un)), <- (p2_nat j) by exact J0. setoid_replace ((inject_Z m + - (inject_Z (s * un) * Qpower 2 j)) * Qpower 2 (- j)) with (inject_Z m * Qpower 2 (- j) - inject_Z (s * un) * (Qpower 2 j * Qpower 2 (- j))) by ring. rewrite p2_inv. ring. }
      eapply double_eq; [symmetry; exact YM|]. apply double_s; [|exact M2]. pose proof (p2_pos (- j)) as PJ. rewrite YM, XM in R1, R2.
      assert (R2' : inject_Z (- m) * Qpower 2 (- j) <= inject_Z (m - s * un * 2 ^ j) * Qpower 2 (- j)) by (rewrite inject_Z_opp; lra).
      apply Qmult_le_r in R1; [|exact PJ]. apply Qmult_le_r in R2'; [|exact PJ]. rewrite <- Zle_Qle in R1, R2'. lia.
    - assert (XZ : x == inject_Z (m * 2 ^ e)) by (rewrite XM, inject_Z_mult, <- p2_nat by exact NE; reflexivity).
      assert (YZ : x - p == inject_Z (m * 2 ^ e - s * un)) by (rewrite P, XZ; unfold Zminus; rewrite inject_Z_plus, inject_Z_opp; reflexivity).
      eapply double_eq; [symmetry; exact YZ|]. apply double_z. rewrite XZ in X0, X53. change 0 with (inject_Z 0) in X0. change 9007199254740992 with (inject_Z (2^53)) in X53. rewrite <- Zle_Qle in X0, X53. rewrite YZ, XZ in R1, R2.
      rewrite <- inject_Z_opp in R2. rewrite <- Zle_Qle in R1, R2. lia. }
  set (y := fl M (x - p)). assert (Y : y == x - p) by (apply fl_exact; auto).
  assert (DYy : double y) by (apply (double_eq _ _ (Qeq_sym _ _ Y) DY)).
  assert (YU : y < inject_Z un) by (rewrite Y, R0; nra). pose proof (pred_gap y un k K DYy YU GAP MUL) as YG.
  set (v2 := y * inject_Z sc). assert (V2 : v2 < 1000000000 - (1 # 16777216)).
  { unfold v2. assert (y * inject_Z sc <= (inject_Z un - Qpower 2 (k - 53)) * inject_Z sc) by (apply Qmult_le_compat_r; lra). pose proof (p2_pos (k - 53)). set (g := Qpower 2 (k - 53)) in *.
    assert ((inject_Z un - g) * inject_Z sc == 1000000000 - inject_Z sc * g) by (rewrite <- PRQ; ring). lra. }
  assert (V2L : - (15 # 16) <= v2).
  { unfold v2. rewrite Y, R0. setoid_replace ((v - inject_Z s) * inject_Z un * inject_Z sc) with ((v - inject_Z s) * (inject_Z sc * inject_Z un)) by ring. rewrite PRQ. lra. }
  set (z := fl M v2). assert (ZL : - (15 # 16) <= z).
  { apply fl_ge; auto. exists (-15)%Z, (-4)%Z. split; [lia|reflexivity]. }
  assert (ZU : z < 1000000000).
  { destruct (Qlt_le_dec z 1000000000) as [|L]; [assumption|]. exfalso.
    assert (DD : double (1000000000 - (1 # 8388608))). { exists (1000000000 * 2^23 - 1)%Z, (-23)%Z. split; [lia|reflexivity]. }
    pose proof (fl_up M I v2 (1000000000 - (1 # 8388608)) 1000000000 DD ltac:(lra) ltac:(lra) L) as U. lra. }
  assert (ZN : - (1 # 8388608) <= z - v2 <= 1 # 8388608).
  { assert (E : exists f, double f /\ - (1 # 8388608) <= f - v2 <= 1 # 8388608).
    { set (m := Qfloor (v2 * 8388608)). pose proof (floor_bounds (v2 * 8388608)) as [F1 F2]. fold m in F1, F2. exists (inject_Z m * Qpower 2 (-23)). change (Qpower 2 (-23)) with (1 # 8388608). split; [|lra].
      change (1 # 8388608) with (Qpower 2 (-23)). apply double_s; [|lia]. assert (inject_Z m < inject_Z (2^53)) as L1 by (change (inject_Z (2^53)) with 9007199254740992; lra). assert (inject_Z (-(2^53)) < inject_Z m) as L2 by (change (inject_Z (-(2^53))) with (-9007199254740992 # 1); lra). rewrite <- Zlt_Qlt in L1, L2. lia. }
    destruct E as (f & DF & NF). exact (fl_within M I v2 f _ DF NF). }
  (* together *)
  assert (TOT : inject_Z s * 1000000000 + v2 == x * inject_Z sc).
  { unfold v2. rewrite Y, P, SUQ. rewrite <- PRQ. ring. }
  assert (N : exists n, trunc z = n /\ (0 <= n < 1000000000)%Z /\ - (1) < inject_Z n - z < 1).
  { destruct (Qlt_le_dec z 0) as [L|L].
    - exists 0%Z. split; [apply trunc_small; lra|]. split; [lia|]. change (inject_Z 0) with 0. lra.
    - destruct (trunc_pos z L) as [[T1 T2] T0]. exists (trunc z). split; [reflexivity|]. split; [split; [exact T0|]|lra]. rewrite Zlt_Qlt. change (inject_Z 1000000000) with 1000000000. lra. }
  destruct N as (n & -> & NB & NZ). replace ((0 <=? n) && (n <? 2 ^ 64))%Z with true by lia. cbn [negb].
  exists {| sec := s; nsec := n mod 1000000000 |}. split; [reflexivity|]. unfold normal, ns. cbn [sec nsec]. rewrite Z.mod_small by exact NB. split; [lia|]. split; [exact S0|].
  rewrite inject_Z_plus, inject_Z_mult. change (inject_Z 1000000000) with 1000000000. lra.
Qed.
