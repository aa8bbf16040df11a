From Verif Require Import Base StrtouModel StrtouSpec StrtouProofs TimeModel TimeSpec.
Local Open Scope Z_scope.

Lemma ts_cmp_ns a b : normal a -> normal b ->
  (ts_cmp a b = -1 <-> ns a < ns b) /\ (ts_cmp a b = 0 <-> ns a = ns b) /\ (ts_cmp a b = 1 <-> ns a > ns b).
Proof.
  unfold normal, ns, ts_cmp. intros Ha Hb.
  destruct (Z.ltb_spec (sec a) (sec b)), (Z.eqb_spec (sec a) (sec b)), (Z.ltb_spec (nsec a) (nsec b)),
    (Z.ltb_spec (sec b) (sec a)), (Z.ltb_spec (nsec b) (nsec a)); cbn [orb andb]; repeat split; intros; try discriminate; try lia.
Qed.
Lemma ts_eq_ns a b : normal a -> normal b -> ns a = ns b -> a = b.
Proof. unfold normal, ns. destruct a, b. cbn. intros. f_equal; lia. Qed.
Lemma ts_nz_ns a : normal a -> ts_nz a = true <-> ns a <> 0.
Proof. unfold normal, ns, ts_nz. intros. destruct (Z.eqb_spec (sec a) 0), (Z.eqb_spec (nsec a) 0); cbn; split; try congruence; intros; lia. Qed.
Lemma ts_add_ns a b : normal a -> normal b -> ns (ts_add a b) = ns a + ns b /\ normal (ts_add a b).
Proof. unfold normal, ns, ts_add. intros. destruct (Z.leb_spec 1000000000 (nsec a + nsec b)); cbn; lia. Qed.
Lemma ts_sub_ns a b : normal a -> normal b -> ns (ts_sub a b) = ns a - ns b /\ normal (ts_sub a b).
Proof. unfold normal, ns, ts_sub. intros. destruct (Z.ltb_spec (nsec a - nsec b) 0); cbn; lia. Qed.
Lemma ts_min_ns a b : normal a -> normal b -> ns (ts_min a b) = Z.min (ns a) (ns b) /\ (ts_min a b = a \/ ts_min a b = b).
Proof.
  intros Ha Hb. destruct (ts_cmp_ns a b Ha Hb) as (H1 & H2 & H3). unfold ts_min.
  destruct (Z.ltb_spec (ts_cmp a b) 0); split; auto.
  - assert (ts_cmp a b = -1). { unfold ts_cmp in *. destruct (_ || _); [auto|]. destruct (_ || _); lia. } lia.
  - assert (ts_cmp a b <> -1) by lia. lia.
Qed.
Lemma ts_max_ns a b : normal a -> normal b -> ns (ts_max a b) = Z.max (ns a) (ns b) /\ (ts_max a b = a \/ ts_max a b = b).
Proof.
  intros Ha Hb. destruct (ts_cmp_ns a b Ha Hb) as (H1 & H2 & H3). unfold ts_max.
  destruct (Z.ltb_spec 0 (ts_cmp a b)); split; auto.
  - assert (ts_cmp a b = 1). { unfold ts_cmp in *. destruct (_ || _); [lia|]. destruct (_ || _); lia. } lia.
  - assert (ts_cmp a b <> 1) by lia. lia.
Qed.
Lemma ts_div_ns a n : normal a -> 0 <= sec a < 2^33 -> 1 <= n < 2^64 ->
  ns (ts_div a n) = (ns a + n / 2) / n /\ normal (ts_div a n).
Proof.
  unfold normal, ns. intros Hn Hs HN.
  set (r := sec a mod n). set (q0 := sec a / n).
  assert (Hr : 0 <= r < n) by (apply Z.mod_pos_bound; lia).
  assert (Hr2 : r <= sec a) by (apply Z.mod_le; lia).
  assert (Hdm : sec a = n * q0 + r) by (apply Z.div_mod; lia).
  assert (Hq0 : 0 <= q0 <= sec a).
  { split; [apply Z.div_pos; lia|]. apply Z.div_le_upper_bound; [lia|nia]. }
  assert (Hh : 0 <= n / 2 < 2^63). { split; [apply Z.div_pos; lia|]. apply Z.div_lt_upper_bound; lia. }
  set (x := r * 1000000000 + nsec a + n / 2).
  assert (Hx : 0 <= x < 2^64) by (unfold x; lia).
  assert (EX : w64 (w64 (w64 (w64 (sec a) mod n * 1000000000) + w64 (nsec a)) + n / 2) = x).
  { unfold w64. rewrite (Z.mod_small (sec a)) by lia. fold r. rewrite (Z.mod_small (r * 1000000000)) by lia.
    rewrite (Z.mod_small (nsec a)) by lia. rewrite (Z.mod_small (r * 1000000000 + nsec a)) by lia.
    fold x. apply Z.mod_small. exact Hx. }
  assert (Hxn : 0 <= x / n < 2^63).
  { split; [apply Z.div_pos; lia|]. apply Z.div_lt_upper_bound; [lia|].
    destruct (Z.eq_dec n 1) as [E1|E1].
    - assert (r = 0) by lia. assert (n / 2 = 0) by (subst n; reflexivity). unfold x. lia.
    - nia. }
  unfold ts_div. rewrite EX. cbv zeta.
  assert (ES : s64 (x / n) = x / n) by (unfold s64; replace (x / n <? 2^63) with true by lia; reflexivity).
  rewrite ES. rewrite Z.quot_div_nonneg, Z.rem_mod_nonneg by lia. cbn [sec nsec].
  pose proof (Z.div_mod (x / n) 1000000000 ltac:(lia)) as D.
  pose proof (Z.mod_pos_bound (x / n) 1000000000 ltac:(lia)) as B.
  assert (0 <= x / n / 1000000000 < 2^34) by (split; [apply Z.div_pos; lia|apply Z.div_lt_upper_bound; lia]).
  replace (w64 (sec a)) with (sec a) by (unfold w64; rewrite Z.mod_small; lia). fold q0.
  assert (EW : w64 (x / n / 1000000000) = x / n / 1000000000) by (apply Z.mod_small; lia). rewrite EW.
  assert (EW2 : w64 (q0 + x / n / 1000000000) = q0 + x / n / 1000000000) by (apply Z.mod_small; lia). rewrite EW2.
  unfold s64. replace (q0 + x / n / 1000000000 <? 2^63) with true by lia.
  split; [|exact B].
  replace (sec a * 1000000000 + nsec a + n / 2) with (q0 * 1000000000 * n + x) by (unfold x; nia).
  rewrite Z.div_add_l by lia. lia.
Qed.

(** ---- ilog ---- *)
Lemma ilog10_iter_spec v0 d p v r : 0 <= p -> d = 10 ^ p -> 0 <= r -> v = v0 / 10 ^ r -> 1 <= v -> v < d * d ->
  let '(v', r') := ilog10_iter d p (v, r) in 0 <= r' /\ v' = v0 / 10 ^ r' /\ 1 <= v' < d.
Proof.
  intros Hp Hd Hr -> Hv Hlt. unfold ilog10_iter. destruct (Z.leb_spec d (v0 / 10 ^ r)) as [H|H].
  - assert (0 < d) by (rewrite Hd; apply Z.pow_pos_nonneg; lia). assert (0 < 10 ^ r) by (apply Z.pow_pos_nonneg; lia).
    split; [lia|]. split; [rewrite Hd, Z.div_div, <- Z.pow_add_r by lia; reflexivity|].
    split; [apply Z.div_le_lower_bound; lia|]. apply Z.div_lt_upper_bound; [lia|exact Hlt].
  - split; [lia|]. split; [reflexivity|lia].
Qed.
Lemma pow_d2 : 10 ^ 2 = 100. Proof. reflexivity. Qed.
Lemma pow_d4 : 10 ^ 4 = 10000. Proof. change 4 with (2 + 2). rewrite Z.pow_add_r, pow_d2 by lia. reflexivity. Qed.
Lemma pow_d8 : 10 ^ 8 = 100000000. Proof. change 8 with (4 + 4). rewrite Z.pow_add_r, pow_d4 by lia. reflexivity. Qed.
Lemma pow_d16 : 10 ^ 16 = 10000000000000000. Proof. change 16 with (8 + 8). rewrite Z.pow_add_r, pow_d8 by lia. reflexivity. Qed.
Lemma ilog10_chain v : exists v1 r1 v2 r2 v3 r3 v4 r4 v5,
  ilog10_iter 10000000000000000 16 (v, 0) = (v1, r1) /\ ilog10_iter 100000000 8 (v1, r1) = (v2, r2) /\
  ilog10_iter 10000 4 (v2, r2) = (v3, r3) /\ ilog10_iter 100 2 (v3, r3) = (v4, r4) /\
  ilog10_iter 10 1 (v4, r4) = (v5, ilog10 v).
Proof.
  assert (E : ilog10 v = snd (ilog10_iter 10 1 (ilog10_iter 100 2 (ilog10_iter 10000 4
      (ilog10_iter 100000000 8 (ilog10_iter 10000000000000000 16 (v, 0))))))) by reflexivity.
  rewrite E. clear E. generalize ilog10_iter. intros g.
  destruct (g 10000000000000000 16 (v, 0)) as [v1 r1] eqn:E1. destruct (g 100000000 8 (v1, r1)) as [v2 r2] eqn:E2.
  destruct (g 10000 4 (v2, r2)) as [v3 r3] eqn:E3. destruct (g 100 2 (v3, r3)) as [v4 r4] eqn:E4.
  destruct (g 10 1 (v4, r4)) as [v5 r5] eqn:E5.
  exists v1, r1, v2, r2, v3, r3, v4, r4, v5. auto.
Qed.
Lemma ilog10_close v q v5 : 0 < q -> v5 = v / q -> 1 <= v5 < 10 -> q <= v < q * 10.
Proof.
  intros P E B. pose proof (Z.div_mod v q ltac:(lia)). pose proof (Z.mod_pos_bound v q ltac:(lia)). nia.
Qed.
Lemma ilog10_spec v : 1 <= v < 18446744073709551616 -> 0 <= ilog10 v /\ 10 ^ ilog10 v <= v < 10 ^ (ilog10 v + 1).
Proof.
  intros H. destruct (ilog10_chain v) as (v1 & r1 & v2 & r2 & v3 & r3 & v4 & r4 & v5 & F1 & F2 & F3 & F4 & F5).
  generalize dependent (ilog10 v). intros r5 F5.
  pose proof (ilog10_iter_spec v 10000000000000000 16 v 0 ltac:(lia) (eq_sym pow_d16) ltac:(lia)
    ltac:(rewrite Z.pow_0_r, Z.div_1_r; reflexivity) ltac:(lia) ltac:(lia)) as S1.
  rewrite F1 in S1. destruct S1 as (R1 & E1 & B1).
  pose proof (ilog10_iter_spec v 100000000 8 v1 r1 ltac:(lia) (eq_sym pow_d8) R1 E1 ltac:(lia) ltac:(lia)) as S2.
  rewrite F2 in S2. destruct S2 as (R2 & E2 & B2).
  pose proof (ilog10_iter_spec v 10000 4 v2 r2 ltac:(lia) (eq_sym pow_d4) R2 E2 ltac:(lia) ltac:(lia)) as S3.
  rewrite F3 in S3. destruct S3 as (R3 & E3 & B3).
  pose proof (ilog10_iter_spec v 100 2 v3 r3 ltac:(lia) (eq_sym pow_d2) R3 E3 ltac:(lia) ltac:(lia)) as S4.
  rewrite F4 in S4. destruct S4 as (R4 & E4 & B4).
  pose proof (ilog10_iter_spec v 10 1 v4 r4 ltac:(lia) (eq_sym (Z.pow_1_r 10)) R4 E4 ltac:(lia) ltac:(lia)) as S5.
  rewrite F5 in S5. destruct S5 as (R5 & E5 & B5).
  split; [exact R5|]. rewrite (Z.pow_add_r 10 r5 1), Z.pow_1_r by lia.
  eapply ilog10_close; [apply Z.pow_pos_nonneg; lia|exact E5|exact B5].
Qed.
Lemma ilog10_zero : ilog10 0 = 0.
Proof. reflexivity. Qed.

Local Open Scope N_scope.
Lemma ilog2_iter_spec v0 b v r : v = v0 / 2 ^ r -> 1 <= v -> v < 2 ^ (2 ^ (b + 1)) -> r mod 2 ^ (b + 1) = 0 ->
  let '(v', r') := ilog2_iter b (v, r) in v' = v0 / 2 ^ r' /\ 1 <= v' < 2 ^ (2 ^ b) /\ r' mod 2 ^ b = 0.
Proof.
  intros -> Hv Hlt Hr. unfold ilog2_iter.
  assert (P : 0 < 2 ^ b) by (apply N.neq_0_lt_0, N.pow_nonzero; lia).
  assert (P2 : 0 < 2 ^ (2 ^ b)) by (apply N.neq_0_lt_0, N.pow_nonzero; lia).
  assert (Hr0 : r mod 2 ^ b = 0).
  { apply N.mod_divide in Hr; [|apply N.pow_nonzero; lia]. destruct Hr as [k ->].
    rewrite N.pow_add_r. replace (k * (2 ^ b * 2 ^ 1)) with (k * 2 * 2 ^ b) by (change (2 ^ 1) with 2; lia). apply N.mod_mul. lia. }
  destruct (N.ltb_spec (2 ^ 2 ^ b - 1) (v0 / 2 ^ r)) as [H|H].
  - rewrite N.shiftl_1_l.
    assert (EL : N.lor r (2 ^ b) = r + 2 ^ b).
    { assert (HL : N.land r (2 ^ b) = 0).
      { apply N.mod_divide in Hr; [|apply N.pow_nonzero; lia]. destruct Hr as [k ->].
        apply N.bits_inj. intros i. rewrite N.land_spec, N.bits_0.
        destruct (N.eq_dec i b) as [->|Hne].
        - rewrite N.mul_pow2_bits_low by lia. reflexivity.
        - rewrite (N.pow2_bits_false b i) by auto. apply andb_false_r. }
      rewrite <- N.lxor_lor by auto. symmetry. apply N.add_nocarry_lxor; auto. }
    rewrite EL, N.shiftr_div_pow2. rewrite N.div_div by (apply N.pow_nonzero; lia). rewrite <- N.pow_add_r.
    split; [reflexivity|]. split.
    + rewrite N.pow_add_r, <- N.div_div by (apply N.pow_nonzero; lia). split.
      * apply N.div_le_lower_bound; lia.
      * apply N.div_lt_upper_bound; [lia|]. rewrite <- N.pow_add_r.
        replace (2 ^ b + 2 ^ b) with (2 ^ (b + 1)); [exact Hlt|]. rewrite N.pow_add_r. change (2 ^ 1) with 2. lia.
    + rewrite <- N.add_mod_idemp_l, Hr0 by lia. rewrite N.add_0_l. apply N.mod_same. lia.
  - rewrite N.shiftl_0_l, N.shiftr_0_r, N.lor_0_r. split; [reflexivity|]. split; [lia|exact Hr0].
Qed.

Lemma log_close v0 v r : v = v0 / 2 ^ r -> 1 <= v < 2 ^ (2 ^ 0) -> 2 ^ r <= v0 < 2 ^ (r + 1).
Proof.
  intros -> H. change (2 ^ (2 ^ 0)) with 2 in H. assert (P : 2 ^ r <> 0) by (apply N.pow_nonzero; lia).
  pose proof (N.div_mod v0 (2 ^ r) P). pose proof (N.mod_lt v0 (2 ^ r) P).
  rewrite N.pow_add_r. change (2 ^ 1) with 2. nia.
Qed.
Ltac ilog_step b Hv Hr Hs :=
  match goal with |- context [ilog2_iter b (?v, ?r)] =>
    match type of Hv with _ = ?v0 / _ =>
    pose proof (ilog2_iter_spec v0 b v r Hv (proj1 Hr) (proj2 Hr) Hs) as ST;
    destruct (ilog2_iter b (v, r)) as [? ?]; clear Hv Hr Hs; destruct ST as (Hv & Hr & Hs) end end.
Lemma ilog2_64_spec v : 1 <= v -> v < 2 ^ 64 -> 2 ^ ilog2_64 v <= v < 2 ^ (ilog2_64 v + 1).
Proof.
  intros H1 H2. unfold ilog2_64.
  assert (Hv : v = v / 2 ^ 0) by (rewrite N.pow_0_r, N.div_1_r; reflexivity).
  assert (Hr : 1 <= v < 2 ^ (2 ^ (5 + 1))) by (split; [exact H1|exact H2]).
  assert (Hs : 0 mod 2 ^ (5 + 1) = 0) by reflexivity.
  ilog_step 5 Hv Hr Hs. ilog_step 4 Hv Hr Hs. ilog_step 3 Hv Hr Hs. ilog_step 2 Hv Hr Hs.
  ilog_step 1 Hv Hr Hs. ilog_step 0 Hv Hr Hs. cbn [snd]. eapply log_close; eauto.
Qed.
Lemma ilog2_32_spec v : 1 <= v -> v < 2 ^ 32 -> 2 ^ ilog2_32 v <= v < 2 ^ (ilog2_32 v + 1).
Proof.
  intros H1 H2. unfold ilog2_32.
  assert (Hv : v = v / 2 ^ 0) by (rewrite N.pow_0_r, N.div_1_r; reflexivity).
  assert (Hr : 1 <= v < 2 ^ (2 ^ (4 + 1))) by (split; [exact H1|exact H2]).
  assert (Hs : 0 mod 2 ^ (4 + 1) = 0) by reflexivity.
  ilog_step 4 Hv Hr Hs. ilog_step 3 Hv Hr Hs. ilog_step 2 Hv Hr Hs.
  ilog_step 1 Hv Hr Hs. ilog_step 0 Hv Hr Hs. cbn [snd]. eapply log_close; eauto.
Qed.

(** ---- parse_ts ---- *)
Lemma strchr_in_In a c : strchr_in a c = true <-> In c a.
Proof.
  unfold strchr_in. rewrite existsb_exists. split.
  - intros (x & Hx & E). apply N.eqb_eq in E. subst; auto.
  - intros H. exists c. split; auto. apply N.eqb_refl.
Qed.
Lemma float_len_iff s : Nat.ltb (strspn (bs "+0123456789") s) (strspn (bs "eE.-+0123456789") s) = true <-> float_like s.
Proof.
  rewrite Nat.ltb_lt. unfold float_like. induction s as [|c s IH].
  - cbn. split; [lia|]. intros (a & c & b & H & _). destruct a; discriminate.
  - cbn [strspn]. destruct (strchr_in (bs "+0123456789") c) eqn:E1.
    + assert (E2 : strchr_in (bs "eE.-+0123456789") c = true).
      { apply strchr_in_In. apply strchr_in_In in E1. change (bs "eE.-+0123456789") with (bs "eE.-" ++ bs "+0123456789").
        apply in_or_app; auto. }
      rewrite E2. rewrite <- Nat.succ_lt_mono, IH. apply strchr_in_In in E1. split.
      * intros (a & d & b & -> & Ha & Hd). exists (c :: a), d, b. split; [reflexivity|]. split; [constructor; auto|auto].
      * intros (a & d & b & H & Ha & Hd). destruct a as [|x a].
        -- cbn [app] in H. inversion H; subst. exfalso. cbn in E1, Hd.
           repeat match goal with H : _ \/ _ |- _ => destruct H end; subst; try tauto; discriminate.
        -- inversion H; subst. exists a, d, b. inversion Ha; subst. auto.
    + destruct (strchr_in (bs "eE.-+0123456789") c) eqn:E2.
      * split; [|lia]. intros _. exists [], c, s. split; [reflexivity|]. split; [constructor|].
        apply strchr_in_In in E2. change (bs "eE.-+0123456789") with (bs "eE.-" ++ bs "+0123456789") in E2.
        apply in_app_or in E2 as [|E2]; [auto|]. apply strchr_in_In in E2. congruence.
      * split; [lia|]. intros (a & d & b & H & Ha & Hd). exfalso. destruct a as [|x a].
        -- inversion H; subst. assert (strchr_in (bs "eE.-+0123456789") d = true); [|congruence].
           apply strchr_in_In. change (bs "eE.-+0123456789") with (bs "eE.-" ++ bs "+0123456789"). apply in_or_app; auto.
        -- inversion H; subst. inversion Ha; subst. apply strchr_in_In in H2. congruence.
Qed.

Lemma tolower_inv c d : 97 <= d <= 122 -> d = tolower c <-> c = d \/ c = d - 32.
Proof. intros H. unfold tolower. destruct ((65 <=? c) && (c <=? 90)) eqn:E; lia. Qed.

Lemma suffix_units e : (e = [] \/ exists c r, e = c :: r /\ In c (bs "smun")) ->
  forall u, (0 < u)%Z -> str2timescale_ex (Some e) 1000 (-1) = u <-> unit_ns e u.
Proof.
  intros He u Hu. unfold str2timescale_ex, unit_ns. destruct e as [|c r].
  - split; [intros <-; auto|]. intros [[_ ->]|[[X _]|[[[X|X] _]|[[[X|X] _]|[[X|X] _]]]]]; try discriminate X. reflexivity.
  - destruct He as [He|(c' & r' & He & Hc)]; [discriminate|]. inversion He; subst c' r'. clear He.
    cbn [find_xlat]. unfold strcaseeq.
    change (bs "smun") with [115; 109; 117; 110] in Hc.
    assert (Hlow : tolower c = c) by (destruct Hc as [<-|[<-|[<-|[<-|[]]]]]; reflexivity).
    cbn [map]. rewrite Hlow.
    assert (R1 : forall x, 97 <= x <= 122 -> beqs [x] (map tolower r) = true <-> r = [x] \/ r = [x - 32]).
    { intros x Hx. rewrite beqs_eq. destruct r as [|y [|z r]]; cbn [map].
      - split; [discriminate|intros [H|H]; discriminate].
      - split; intros H.
        + assert (H1 : x = tolower y) by congruence. apply tolower_inv in H1; auto. destruct H1 as [->| ->]; auto.
        + f_equal. apply tolower_inv; auto. destruct H as [H|H]; inversion H; auto.
      - split; [discriminate|intros [H|H]; discriminate]. }
    assert (R0 : beqs [] (map tolower r) = true <-> r = []).
    { rewrite beqs_eq. destruct r; cbn; split; congruence. }
    specialize (R1 115 ltac:(lia)). change (115 - 32) with 83 in R1.
    change (bs "s") with [115]. change (bs "ms") with [109; 115]. change (bs "us") with [117; 115]. change (bs "ns") with [110; 115].
    change (bs "mS") with [109; 83]. change (bs "uS") with [117; 83]. change (bs "nS") with [110; 83].
    cbn [map]. change (tolower 115) with 115. change (tolower 109) with 109. change (tolower 117) with 117. change (tolower 110) with 110.
    cbn [beqs]. cbn [beqs] in R0, R1.
    destruct Hc as [<-|[<-|[<-|[<-|[]]]]].
    + change (115 =? 115) with true. change (109 =? 115) with false. change (117 =? 115) with false. change (110 =? 115) with false.
      cbn [andb]. destruct (match map tolower r with [] => true | _ => false end) eqn:E.
      * assert (r = []) as -> by (apply R0; auto). split; [intros <-; right; left; split; reflexivity|].
        intros [[X _]|[[_ ->]|[[[X|X] _]|[[[X|X] _]|[[X|X] _]]]]]; try discriminate X; reflexivity.
      * split; [lia|]. intros [[X _]|[[X _]|[[[X|X] _]|[[[X|X] _]|[[X|X] _]]]]]; try discriminate X.
        exfalso. inversion X; subst r. discriminate E.
    + change (115 =? 109) with false. change (109 =? 109) with true. change (117 =? 109) with false. change (110 =? 109) with false.
      cbn [andb]. destruct (match map tolower r with [] => false | y :: b' => _ end) eqn:E.
      * clear E; pose proof (proj1 R1 eq_refl) as E. split; [intros <-; right; right; left; split; [destruct E as [->| ->]; auto|reflexivity]|].
        intros [[X _]|[[X _]|[[_ ->]|[[[X|X] _]|[[X|X] _]]]]]; try discriminate X; reflexivity.
      * split; [lia|]. intros [[X _]|[[X _]|[[[X|X] _]|[[[X|X] _]|[[X|X] _]]]]]; try discriminate X; exfalso; inversion X; subst r; discriminate E.
    + change (115 =? 117) with false. change (109 =? 117) with false. change (117 =? 117) with true. change (110 =? 117) with false.
      cbn [andb]. destruct (match map tolower r with [] => false | y :: b' => _ end) eqn:E.
      * clear E; pose proof (proj1 R1 eq_refl) as E. split; [intros <-; right; right; right; left; split; [destruct E as [->| ->]; auto|reflexivity]|].
        intros [[X _]|[[X _]|[[[X|X] _]|[[_ ->]|[[X|X] _]]]]]; try discriminate X; reflexivity.
      * split; [lia|]. intros [[X _]|[[X _]|[[[X|X] _]|[[[X|X] _]|[[X|X] _]]]]]; try discriminate X; exfalso; inversion X; subst r; discriminate E.
    + change (115 =? 110) with false. change (109 =? 110) with false. change (117 =? 110) with false. change (110 =? 110) with true.
      cbn [andb]. destruct (match map tolower r with [] => false | y :: b' => _ end) eqn:E.
      * clear E; pose proof (proj1 R1 eq_refl) as E. split; [intros <-; right; right; right; right; split; [destruct E as [->| ->]; auto|reflexivity]|].
        intros [[X _]|[[X _]|[[[X|X] _]|[[[X|X] _]|[_ ->]]]]]; try discriminate X; reflexivity.
      * split; [lia|]. intros [[X _]|[[X _]|[[[X|X] _]|[[[X|X] _]|[[X|X] _]]]]]; try discriminate X; exfalso; inversion X; subst r; discriminate E.
Qed.

Lemma unit_first e u : unit_ns e u -> e = [] \/ exists c r, e = c :: r /\ In c (bs "smun").
Proof.
  unfold unit_ns. intros H. destruct e as [|c r]; [auto|right]. exists c, r. split; [reflexivity|].
  destruct H as [[X _]|[[X _]|[[[X|X] _]|[[[X|X] _]|[[X|X] _]]]]]; inversion X; subst; cbn; auto.
Qed.
Lemma unit_value e u : unit_ns e u -> (u = 1000 \/ u = 1000000000 \/ u = 1000000 \/ u = 1)%Z.
Proof. unfold unit_ns. intuition. Qed.

Lemma parse_ts_ok s t : parse_ts s = PtsOk t <->
  ~ float_like s /\ normal t /\ (0 <= sec t)%Z /\ duration s (ns t).
Proof.
  unfold parse_ts. destruct (Nat.ltb _ _) eqn:EF.
  { apply float_len_iff in EF. split; [discriminate|]. intros [H _]; tauto. }
  assert (NF : ~ float_like s) by (rewrite <- float_len_iff; congruence). clear EF.
  pose proof (string_to_uint_ex_iff s (2^63 - 1) (Some (bs "smun"))) as U.
  split.
  - destruct (string_to_uint_ex _ _ _) as [[v e]|]; [|discriminate].
    destruct (proj1 (U v e) eq_refl) as (H0 & HN & HM & HX & HE). cbv zeta.
    assert (HE' : e = [] \/ exists c r, e = c :: r /\ In c (bs "smun")).
    { destruct HE as [|(c & r & a & -> & E & Hi)]; [auto|]. inversion E; subst. right; eauto. }
    set (u := str2timescale_ex (Some e) 1000 (-1)). destruct (Z.leb_spec u 0); [discriminate|].
    intros E. injection E as <-. pose proof (proj1 (suffix_units e HE' u ltac:(lia)) eq_refl) as HU.
    split; [auto|]. unfold normal, ns. cbn [sec nsec].
    assert (Hdiv : (1000000000 = u * (1000000000 / u) /\ 0 < 1000000000 / u)%Z).
    { destruct (unit_value _ _ HU) as [->|[->|[->| ->]]]; split; reflexivity. }
    destruct Hdiv as [Hd1 Hd2]. pose proof (Z.div_mod v (1000000000 / u) ltac:(lia)) as D.
    pose proof (Z.mod_pos_bound v (1000000000 / u) ltac:(lia)) as B.
    set (w := (1000000000 / u)%Z) in *. set (q := (v / w)%Z) in *. set (rr := (v mod w)%Z) in *.
    split; [nia|]. split; [apply Z.div_pos; lia|].
    exists (Z.to_N v), e, u. split; [exact HN|]. split; [lia|]. split; [exact HU|]. nia.
  - intros (_ & Hn & Hs & (v & e & u & HN & HV & HU & HD)).
    assert (E : string_to_uint_ex s (2^63 - 1) (Some (bs "smun")) = Some (Z.of_N v, e)).
    { apply U. rewrite N2Z.id. split; [lia|]. split; [exact HN|]. split; [lia|]. split; [unfold LLONG_MAX; lia|].
      destruct (unit_first e u HU) as [|(c & r & -> & Hi)]; [auto|]. right. exists c, r, (bs "smun"). auto. }
    rewrite E. cbv zeta.
    assert (Hu : (0 < u)%Z) by (destruct (unit_value _ _ HU) as [->|[->|[->| ->]]]; lia).
    rewrite (proj2 (suffix_units e (unit_first e u HU) u Hu) HU).
    replace (u <=? 0)%Z with false by lia. f_equal. apply ts_eq_ns; auto.
    + unfold normal. cbn [nsec].
      assert (Hdiv : (1000000000 = u * (1000000000 / u) /\ 0 < 1000000000 / u)%Z).
      { destruct (unit_value _ _ HU) as [->|[->|[->| ->]]]; split; reflexivity. }
      pose proof (Z.mod_pos_bound (Z.of_N v) (1000000000 / u) ltac:(lia)). nia.
    + rewrite HD. unfold ns. cbn [sec nsec].
      assert (Hdiv : (1000000000 = u * (1000000000 / u) /\ 0 < 1000000000 / u)%Z).
      { destruct (unit_value _ _ HU) as [->|[->|[->| ->]]]; split; reflexivity. }
      pose proof (Z.div_mod (Z.of_N v) (1000000000 / u) ltac:(lia)). nia.
Qed.
