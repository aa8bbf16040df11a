(** C54. *)
From Verif Require Import Base ErrnoModel.
Local Open Scope N_scope.

(** ** Specification: the kernel's convention, IS_ERR_VALUE *)
Definition errno_word (w v e : N) : Prop := 1 <= e <= 4095 /\ v + e = 2 ^ w.
(** what strace should show for the register value [v] of a [w]-bit tracee *)
Definition decoded (v : N) (w : N) (minus1 : N) (r : result) : Prop :=
  (forall e, errno_word w v e -> r = {| rval := minus1; err := e |}) /\
  ((forall e, ~ errno_word w v e) -> r = {| rval := v; err := 0 |}).

(** register structures as wide as the tracee's long: everything but tile's compat mode *)
Definition native (a : negarch) : Prop := (kb a = 32 \/ kb a = 64) /\ (rb a = 32 \/ rb a = 64) /\ klong a = rb a /\ rb a <= kb a.

Lemma neg_native a v : native a -> v < 2 ^ rb a -> is_negated_errno (kb a) (klong a) v = (2 ^ rb a - 4095 <=? v).
Proof.
  intros ([K|K] & [R|R] & L & LE) Hv; unfold is_negated_errno, MAX_ERRNO; rewrite L, K, R in *; try lia.
  - change (32 <? 32) with false. reflexivity.
  - change (32 <? 64) with true. rewrite (N.mod_small v) by exact Hv. reflexivity.
  - change (64 <? 64) with false. reflexivity.
Qed.
Lemma pow_big a : native a -> 8192 <= 2 ^ rb a /\ 2 ^ rb a <= 2 ^ kb a.
Proof.
  intros ([K|K] & [R|R] & L & LE); rewrite K, R in *; split; try (apply N.pow_le_mono_r; lia); cbn; lia.
Qed.

(** A result register in [-4095, -1] of the tracee's word is an error with that errno, any
    other is a successful result, shown unchanged.  With [check] off (calls that never fail)
    it is always a result. *)
Theorem C54_recognition : forall a v, native a -> v < 2 ^ rb a ->
  decoded v (rb a) (2 ^ kb a - 1) (get_neg a true v) /\ get_neg a false v = {| rval := v; err := 0 |}.
Proof.
  intros a v Ha Hv. pose proof (pow_big a Ha) as [HB _]. unfold get_neg. cbn [andb]. rewrite neg_native by assumption.
  split; [|reflexivity]. split.
  - intros e [H1 H2]. replace (2 ^ rb a - 4095 <=? v) with true by (symmetry; apply N.leb_le; lia).
    f_equal. rewrite N.mod_small; lia.
  - intros H. destruct (N.leb_spec (2 ^ rb a - 4095) v) as [L|L]; [|reflexivity].
    exfalso. apply (H (2 ^ rb a - v)). unfold errno_word. lia.
Qed.
Print Assumptions C54_recognition.
Example ex_native : native {| kb := 64; rb := 32; klong := 32 |} /\ native {| kb := 64; rb := 64; klong := 64 |} /\
  get_neg {| kb := 64; rb := 32; klong := 32 |} true (2^32 - 2) = {| rval := 2^64 - 1; err := 2 |} /\
  get_neg {| kb := 64; rb := 64; klong := 64 |} true (2^64 - 4096) = {| rval := 2^64 - 4096; err := 0 |} /\
  get_neg {| kb := 64; rb := 64; klong := 64 |} true (2^64 - 4095) = {| rval := 2^64 - 1; err := 4095 |}.
Proof. unfold native; cbn; repeat split; auto; lia. Qed.

(** A compat tracee whose register structure is 64 bits wide (tile): correct for the
    sign-extended values the kernel stores there. *)
Theorem C54_recognition_wide_compat : forall v, v < 2 ^ 64 -> (v < 2 ^ 31 \/ 2 ^ 64 - 2 ^ 31 <= v) ->
  decoded v 64 (2 ^ 64 - 1) (get_neg {| kb := 64; rb := 64; klong := 32 |} true v).
Proof.
  intros v Hv HS. unfold get_neg, is_negated_errno, MAX_ERRNO. cbn [andb kb rb klong]. change (32 <? 64) with true. cbv iota zeta.
  change ((2 ^ 64 - 4095) mod 2 ^ 32) with (2 ^ 32 - 4095).
  assert (V : v mod 2 ^ 32 = if v <? 2 ^ 31 then v else v - (2 ^ 64 - 2 ^ 32)).
  { destruct (N.ltb_spec v (2 ^ 31)); [apply N.mod_small; change (2^32) with 4294967296; change (2^31) with 2147483648 in *; lia|].
    replace v with ((v - (2 ^ 64 - 2 ^ 32)) + (2 ^ 32 - 1) * 2 ^ 32) at 1.
    - rewrite N.mod_add by discriminate. apply N.mod_small. cbn in *; lia.
    - cbn in *; lia. }
  rewrite V. split.
  - intros e [H1 H2]. destruct (N.ltb_spec v (2 ^ 31)) as [L|L]; [cbn in *; lia|].
    replace (2 ^ 32 - 4095 <=? v - (2 ^ 64 - 2 ^ 32)) with true by (symmetry; apply N.leb_le; cbn in *; lia).
    f_equal. rewrite N.mod_small; cbn in *; lia.
  - intros H. destruct (N.leb_spec (2 ^ 32 - 4095) (if v <? 2 ^ 31 then v else v - (2 ^ 64 - 2 ^ 32))) as [L|L]; [|reflexivity].
    exfalso. apply (H (2 ^ 64 - v)). unfold errno_word. destruct (N.ltb_spec v (2 ^ 31)); cbn in *; lia.
Qed.
Print Assumptions C54_recognition_wide_compat.

(** x86_64, i386-on-x86_64 and x32 *)
Theorem C54_recognition_x86_64 : forall (compat : bool) rax, rax < 2 ^ 64 ->
  decoded (if compat then rax mod 2 ^ 32 else rax) (if compat then 32 else 64) (2 ^ 64 - 1) (get_x86_64 compat true rax) /\
  get_x86_64 compat false rax = {| rval := (if compat then rax mod 2 ^ 32 else rax); err := 0 |}.
Proof.
  intros compat rax Hr. unfold get_x86_64, is_negated_errno, MAX_ERRNO. cbv zeta. cbn [andb].
  destruct compat.
  - change (32 <? 64) with true. cbv iota.
    assert (Hm : rax mod 2 ^ 32 < 2 ^ 32) by (apply N.mod_lt; discriminate).
    assert (SM : sext32 rax mod 2 ^ 32 = rax mod 2 ^ 32).
    { unfold sext32. destruct (N.ltb_spec (rax mod 2 ^ 32) (2 ^ 31)); [apply N.mod_mod; discriminate|].
      replace (2 ^ 64 - 2 ^ 32 + rax mod 2 ^ 32) with (rax mod 2 ^ 32 + (2 ^ 32 - 1) * 2 ^ 32) by (cbn; lia).
      rewrite N.mod_add by discriminate. apply N.mod_mod; discriminate. }
    rewrite SM. change ((2 ^ 64 - 4095) mod 2 ^ 32) with (2 ^ 32 - 4095). split; [|reflexivity]. split.
    + intros e [H1 H2]. replace (2 ^ 32 - 4095 <=? rax mod 2 ^ 32) with true by (symmetry; apply N.leb_le; lia).
      f_equal. unfold sext32. destruct (N.ltb_spec (rax mod 2 ^ 32) (2 ^ 31)) as [L|L]; [cbn in *; lia|].
      set (x := rax mod 2 ^ 32) in *. rewrite N.mod_small; cbn in *; lia.
    + intros H. destruct (N.leb_spec (2 ^ 32 - 4095) (rax mod 2 ^ 32)) as [L|L]; [|reflexivity].
      exfalso. apply (H (2 ^ 32 - rax mod 2 ^ 32)). unfold errno_word. lia.
  - change (64 <? 64) with false. cbv iota. split; [|reflexivity]. split.
    + intros e [H1 H2]. replace (2 ^ 64 - 4095 <=? rax) with true by (symmetry; apply N.leb_le; lia).
      f_equal. rewrite N.mod_small; lia.
    + intros H. destruct (N.leb_spec (2 ^ 64 - 4095) rax) as [L|L]; [|reflexivity].
      exfalso. apply (H (2 ^ 64 - rax)). unfold errno_word. lia.
Qed.
Print Assumptions C54_recognition_x86_64.
Example ex_x86 : get_x86_64 true true (2^32 - 11) = {| rval := 2^64 - 1; err := 11 |} /\
  get_x86_64 false true (2^32 - 11) = {| rval := 2^32 - 11; err := 0 |} /\ get_x86_64 true true (5 * 2^32 + 7) = {| rval := 7; err := 0 |}.
Proof. repeat split. Qed.

(** Flag architectures: an error exactly when the flag (for sparc and powerpc: its error
    bits) is set *)
Theorem C54_recognition_flag : forall kb a v flag,
  let set := match a with ALPHA | MIPS | IA64 | NIOS2 => flag <> 0 | _ => exists i, N.testbit flag i = true /\ N.testbit (fmask a) i = true end in
  (set -> get_flag kb a v flag = {| rval := 2 ^ kb - 1; err := v |}) /\ (~ set -> get_flag kb a v flag = {| rval := v; err := 0 |}).
Proof.
  intros kb a v flag. assert (B : forall m, (exists i, N.testbit flag i = true /\ N.testbit m i = true) <-> N.land flag m <> 0).
  { intros m. split.
    - intros (i & H1 & H2) E. assert (N.testbit (N.land flag m) i = true) by (rewrite N.land_spec, H1, H2; reflexivity).
      rewrite E, N.bits_0 in *. discriminate.
    - intros H. exists (N.log2 (N.land flag m)). apply andb_true_iff. rewrite <- N.land_spec. apply N.bit_log2. exact H. }
  unfold get_flag. destruct a; cbv zeta;
    (split; intros H; [try (apply B in H); match goal with |- context [?x =? 0] => destruct (N.eqb_spec x 0); [contradiction|reflexivity] end|]);
    match goal with |- context [?x =? 0] => destruct (N.eqb_spec x 0); [reflexivity|exfalso; apply H; try (apply B); assumption] end.
Qed.
Print Assumptions C54_recognition_flag.

(** ** Injected errors and results read back as injected *)
Theorem C54_injected_error : forall a e, native a -> 1 <= e <= 4095 ->
  get_neg a true (set_error_neg a e) = {| rval := 2 ^ kb a - 1; err := e |}.
Proof.
  intros a e Ha He. pose proof (pow_big a Ha) as [HB HK].
  assert (V : set_error_neg a e + e = 2 ^ rb a).
  { unfold set_error_neg. rewrite (N.mod_small (2 ^ kb a - e)) by lia.
    destruct Ha as ([K|K] & [R|R] & L & LE); rewrite K, R in *; try lia.
    all: try (rewrite N.mod_small by lia; lia). }
  assert (L : set_error_neg a e < 2 ^ rb a) by lia.
  destruct (C54_recognition a _ Ha L) as [[A _] _]. apply A. split; [exact He|exact V].
Qed.
Print Assumptions C54_injected_error.
Theorem C54_injected_success : forall a v check, native a -> v < 2 ^ kb a ->
  (check = false \/ forall e, ~ errno_word (rb a) (v mod 2 ^ rb a) e) ->
  get_neg a check (set_success_neg a v) = {| rval := v mod 2 ^ rb a; err := 0 |}.
Proof.
  intros a v check Ha Hv H. unfold set_success_neg. pose proof (pow_big a Ha) as [HB HK].
  assert (L : v mod 2 ^ rb a < 2 ^ rb a) by (apply N.mod_lt; lia).
  destruct (C54_recognition a _ Ha L) as [[_ A] B]. destruct check; [|exact B]. destruct H as [|H]; [discriminate|]. apply A. exact H.
Qed.
Print Assumptions C54_injected_success.
Theorem C54_injected_x86_64 : forall (compat : bool) e v (check : bool),
  (1 <= e <= 4095 -> get_x86_64 compat true (set_error_x86_64 e) = {| rval := 2 ^ 64 - 1; err := e |}) /\
  (v < 2 ^ 64 ->
   let shown := if compat then v mod 2 ^ 32 else v in
   (check = false \/ forall e, ~ errno_word (if compat then 32 else 64) shown e) ->
   get_x86_64 compat check (set_success_x86_64 v) = {| rval := shown; err := 0 |}).
Proof.
  intros compat e v check. split.
  - intros He. unfold set_error_x86_64. rewrite N.mod_small by (cbn; lia).
    destruct (C54_recognition_x86_64 compat (2 ^ 64 - e) ltac:(cbn; lia)) as [[A _] _]. apply A. split; [exact He|].
    destruct compat; [|cbn; lia].
    replace (2 ^ 64 - e) with ((2 ^ 32 - e) + (2 ^ 32 - 1) * 2 ^ 32) by (cbn in *; lia). rewrite N.mod_add by discriminate.
    rewrite N.mod_small; cbn; lia.
  - intros Hv shown H. unfold set_success_x86_64. destruct (C54_recognition_x86_64 compat v Hv) as [[_ A] B].
    destruct check; [|exact B]. destruct H as [|H]; [discriminate|]. apply A. exact H.
Qed.
Print Assumptions C54_injected_x86_64.
(** Partial: architectures where set_error stores what get_error looks for; nios2 does not (see the refuted theorem). *)
Theorem C54_injected_flag_partial : forall kb a e v flag, 1 <= kb -> a <> NIOS2 ->
  (let '(r, f) := set_error_flag kb a e flag in get_flag kb a r f = {| rval := 2 ^ kb - 1; err := e |}) /\
  (let '(r, f) := set_success_flag a v flag in get_flag kb a r f = {| rval := v; err := 0 |}).
Proof.
  intros kb a e v flag Hk Ha.
  assert (L1 : forall m, m <> 0 -> N.land (N.lor flag m) m =? 0 = false).
  { intros m Hm. apply N.eqb_neq. rewrite N.land_comm, N.lor_comm. rewrite N.land_lor_distr_r, N.land_diag. intros E. apply N.lor_eq_0_iff in E. tauto. }
  assert (L2 : forall m, N.land (N.ldiff flag m) m =? 0 = true).
  { intros m. apply N.eqb_eq. apply N.bits_inj. intros i. rewrite N.land_spec, N.ldiff_spec, N.bits_0. destruct (N.testbit m i); rewrite ?andb_false_r; reflexivity. }
  assert (P : 2 ^ kb - 1 =? 0 = false).
  { apply N.eqb_neq. assert (2 ^ 1 <= 2 ^ kb) by (apply N.pow_le_mono_r; lia). change (2 ^ 1) with 2 in *. lia. }
  destruct a; try congruence; cbn [set_error_flag set_success_flag]; unfold get_flag; rewrite ?P, ?L1, ?L2 by discriminate; split; reflexivity.
Qed.
Print Assumptions C54_injected_flag_partial.
(** nios2: the injected error is stored negated although the kernel's convention, and
    strace's own decoder, use a positive errno beside the flag: -e inject=...:error=ENOENT
    makes the tracee see, and strace show, a wrong errno. *)
Theorem C54_injected_nios2_refuted : exists e, 1 <= e <= 4095 /\
  let '(r, f) := set_error_flag 32 NIOS2 e 0 in err (get_flag 32 NIOS2 r f) = 2 ^ 32 - 2 /\ e = 2.
Proof. exists 2. split; [lia|]. vm_compute. split; reflexivity. Qed.
Print Assumptions C54_injected_nios2_refuted.

(** The error bits: CR0[SO] of powerpc, the carry of sparc, both carries of sparc64 *)
Theorem C54_error_bits : forall a i, N.testbit (fmask a) i = true <-> match a with POWERPC => i = 28 | SPARC => i = 20 | SPARC64 => i = 32 \/ i = 36 | _ => False end.
Proof.
  intros a i. destruct (N.ltb_spec i 37) as [L|L].
  - assert (G : forall j, (j < 37)%nat -> forall b, N.testbit (fmask b) (N.of_nat j) = match b with POWERPC => (j =? 28)%nat | SPARC => (j =? 20)%nat | SPARC64 => (j =? 32)%nat || (j =? 36)%nat | _ => false end).
    { intros j J b. do 37 (destruct j as [|j]; [destruct b; reflexivity|]). lia. }
    specialize (G (N.to_nat i) ltac:(lia) a). rewrite N2Nat.id in G. rewrite G. clear G. destruct a; lia.
  - assert (N.testbit (fmask a) i = false) as ->. { destruct (N.eq_dec (fmask a) 0) as [-> |NZ]; [apply N.bits_0|]. apply N.bits_above_log2. apply (N.lt_le_trans _ 37); [|exact L]. destruct a; vm_compute; reflexivity. }
    split; [discriminate|]. destruct a; lia.
Qed.
Print Assumptions C54_error_bits.
