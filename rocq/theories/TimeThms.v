(** C17, C18, C56. *)
From Verif Require Import Base StrtouModel StrtouSpec TimeModel TimeSpec TimeProofs.
Local Open Scope Z_scope.

(** C17 *)
Theorem C17_compare : forall a b, normal a -> normal b ->
  (ts_cmp a b = -1 <-> ns a < ns b) /\ (ts_cmp a b = 0 <-> ns a = ns b) /\ (ts_cmp a b = 1 <-> ns a > ns b).
Proof. exact ts_cmp_ns. Qed.
Print Assumptions C17_compare.
Theorem C17_nonzero : forall a, normal a -> ts_nz a = true <-> ns a <> 0.
Proof. exact ts_nz_ns. Qed.
Print Assumptions C17_nonzero.
Theorem C17_add : forall a b, normal a -> normal b -> ns (ts_add a b) = ns a + ns b /\ normal (ts_add a b).
Proof. exact ts_add_ns. Qed.
Print Assumptions C17_add.
Theorem C17_sub : forall a b, normal a -> normal b -> ns (ts_sub a b) = ns a - ns b /\ normal (ts_sub a b).
Proof. exact ts_sub_ns. Qed.
Print Assumptions C17_sub.
Theorem C17_min : forall a b, normal a -> normal b ->
  ns (ts_min a b) = Z.min (ns a) (ns b) /\ (ts_min a b = a \/ ts_min a b = b).
Proof. exact ts_min_ns. Qed.
Print Assumptions C17_min.
Theorem C17_max : forall a b, normal a -> normal b ->
  ns (ts_max a b) = Z.max (ns a) (ns b) /\ (ts_max a b = a \/ ts_max a b = b).
Proof. exact ts_max_ns. Qed.
Print Assumptions C17_max.
(** Quotients are rounded to the nearest nanosecond.  The dividend must be below 2^33
    seconds (272 years).
    Partial: beyond, the nanoseconds overflow (C17_div_refuted). *)
Theorem C17_div_partial : forall a n, normal a -> 0 <= sec a < 2^33 -> 1 <= n < 2^64 ->
  ns (ts_div a n) = (ns a + n / 2) / n /\ normal (ts_div a n).
Proof. exact ts_div_ns. Qed.
Print Assumptions C17_div_partial.
(** Beyond that the intermediate product no longer fits 64 bits. *)
Theorem C17_div_refuted : exists a n, normal a /\ 0 <= sec a < 2^63 /\ 1 <= n < 2^64 /\
  ns (ts_div a n) <> (ns a + n / 2) / n.
Proof.
  exists {| sec := 2^35; nsec := 0 |}, (2^36). unfold normal. repeat split; try (cbn; lia).
  vm_compute. discriminate.
Qed.
Print Assumptions C17_div_refuted.
Example ex_ts : normal {| sec := 7; nsec := 999999999 |} /\
  ts_add {| sec := 7; nsec := 999999999 |} {| sec := -1; nsec := 1 |} = {| sec := 7; nsec := 0 |} /\
  ts_sub {| sec := 7; nsec := 0 |} {| sec := 1; nsec := 1 |} = {| sec := 5; nsec := 999999999 |} /\
  ts_div {| sec := 10; nsec := 5 |} 3 = {| sec := 3; nsec := 333333335 |}.
Proof. unfold normal. vm_compute. repeat split; congruence. Qed.

(** C18: a string without a fraction or an exponent is accepted exactly when it is a
    decimal numeral followed by a unit, and the time stored is the product.  (Partial:
    the floating-point notation is in FtsThms.v.) *)
Theorem C18_time_argument_partial : forall s t, parse_ts s = PtsOk t <->
  ~ float_like s /\ normal t /\ 0 <= sec t /\ duration s (ns t).
Proof. exact parse_ts_ok. Qed.
Print Assumptions C18_time_argument_partial.
(** Partial: the floating-point notation is in FtsThms.v. *)
Theorem C18_rejected_partial : forall s, parse_ts s = PtsFail <->
  ~ float_like s /\ forall d, ~ duration s d.
Proof.
  intros s. split.
  - intros H. assert (NF : ~ float_like s).
    { rewrite <- float_len_iff. unfold parse_ts in H. destruct (Nat.ltb _ _); [discriminate|congruence]. }
    split; [exact NF|]. intros d Hd.
    assert (Hd0 : 0 <= d).
    { destruct Hd as (v & e & u & _ & _ & HU & ->). destruct (unit_value _ _ HU) as [->|[->|[->| ->]]]; lia. }
    assert (E : parse_ts s = PtsOk {| sec := d / 1000000000; nsec := d mod 1000000000 |}); [|congruence].
    apply parse_ts_ok. unfold normal, ns. cbn [sec nsec].
    pose proof (Z.div_mod d 1000000000 ltac:(lia)). pose proof (Z.mod_pos_bound d 1000000000 ltac:(lia)).
    split; [auto|]. split; [lia|]. split; [apply Z.div_pos; lia|].
    replace (d / 1000000000 * 1000000000 + d mod 1000000000) with d by lia. exact Hd.
  - intros (NF & HD). destruct (parse_ts s) as [t| |] eqn:E; [|reflexivity|].
    + apply parse_ts_ok in E as (_ & _ & _ & D). destruct (HD _ D).
    + exfalso. apply NF, float_len_iff. unfold parse_ts in E. destruct (Nat.ltb _ _); [reflexivity|].
      destruct (string_to_uint_ex _ _ _) as [[v e]|]; [|discriminate]. cbv zeta in E. destruct (_ <=? 0); discriminate.
Qed.
Print Assumptions C18_rejected_partial.
Example ex_parse_ts : parse_ts (bs "1500ms") = PtsOk {| sec := 1; nsec := 500000000 |} /\
  parse_ts (bs "7") = PtsOk {| sec := 0; nsec := 7000 |} /\ parse_ts (bs "7q") = PtsFail /\
  parse_ts (bs "1.5s") = PtsFloat /\ parse_ts (bs "9223372036854775808") = PtsFail.
Proof. vm_compute. repeat split. Qed.

(** C56 *)
Theorem C56_ilog10 : forall v, 1 <= v < 2^64 -> 0 <= ilog10 v /\ 10 ^ ilog10 v <= v < 10 ^ (ilog10 v + 1).
Proof. intros v H. apply ilog10_spec. split; [apply H|]. change 18446744073709551616 with (2^64). apply H. Qed.
Print Assumptions C56_ilog10.
Theorem C56_ilog2_64 : forall v, (1 <= v)%N -> (v < 2 ^ 64)%N -> (2 ^ ilog2_64 v <= v < 2 ^ (ilog2_64 v + 1))%N.
Proof. exact ilog2_64_spec. Qed.
Print Assumptions C56_ilog2_64.
Theorem C56_ilog2_32 : forall v, (1 <= v)%N -> (v < 2 ^ 32)%N -> (2 ^ ilog2_32 v <= v < 2 ^ (ilog2_32 v + 1))%N.
Proof. exact ilog2_32_spec. Qed.
Print Assumptions C56_ilog2_32.
Theorem C56_zero : ilog10 0 = 0 /\ ilog2_64 0 = 0%N /\ ilog2_32 0 = 0%N.
Proof. repeat split. Qed.
Print Assumptions C56_zero.
Example ex_ilog : ilog10 (2^64 - 1) = 19 /\ ilog2_64 (2^64 - 1) = 63%N /\ ilog2_32 4096 = 12%N.
Proof. vm_compute. auto. Qed.
