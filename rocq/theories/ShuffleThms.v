(** C57: renumbering of system calls (src/linux/*/shuffle_scno.c) is an involution,
    and so loses no system call number. *)
From Verif Require Import Base ShuffleModel.
Local Open Scope N_scope.

Lemma lxor_invol a b : N.lxor (N.lxor a b) b = a.
Proof. rewrite N.lxor_assoc, N.lxor_nilpotent, N.lxor_0_r. reflexivity. Qed.

Lemma lxor_pow2_lt a k m : a < 2^m -> k < m -> N.lxor a (2^k) < 2^m.
Proof.
  intros Ha Hk. destruct (N.eq_dec (N.lxor a (2^k)) 0) as [->|H0]; [lia|].
  apply N.log2_lt_pow2; [lia|].
  pose proof (N.log2_lxor a (2^k)).
  rewrite N.log2_pow2 in H by lia.
  destruct (N.eq_dec a 0) as [->|Ha0]; [simpl in *; lia|].
  apply N.log2_lt_pow2 in Ha; lia.
Qed.

Theorem C57_shuffle_generic : forall scno pers, shuffle_generic (shuffle_generic scno pers) pers = scno.
Proof. reflexivity. Qed.
Print Assumptions C57_shuffle_generic.

Theorem C57_shuffle_x86_64 : forall scno pers, shuffle_x86_64 (shuffle_x86_64 scno pers) pers = scno.
Proof. intros. unfold shuffle_x86_64. destruct (Nat.eqb pers 2); [apply lxor_invol|reflexivity]. Qed.
Print Assumptions C57_shuffle_x86_64.

(** On x32 the number (kernel_ulong_t) -1 is left alone, so the pair
    {-1, -1 ^ X32_BIT} is not swapped: all numbers but -1 ^ X32_BIT round-trip.
    Partial: that one number is excluded. *)
Theorem C57_shuffle_x32_partial : forall scno pers, scno <> 2^64 - 1 - X32_SYSCALL_BIT ->
  shuffle_x32 (shuffle_x32 scno pers) pers = scno.
Proof.
  intros scno pers H. unfold shuffle_x32. destruct (Nat.eqb pers 0); cbn [andb]; [|reflexivity].
  destruct (N.eqb_spec scno (2^64 - 1)) as [->|Hne]; cbn [negb].
  - replace (2^64 - 1 =? 2^64 - 1) with true by (symmetry; apply N.eqb_refl). reflexivity.
  - destruct (N.eqb_spec (N.lxor scno X32_SYSCALL_BIT) (2^64 - 1)) as [He|Hn2]; cbn [negb].
    + exfalso. apply H. rewrite <- (lxor_invol scno X32_SYSCALL_BIT), He. vm_compute. reflexivity.
    + apply lxor_invol.
Qed.
Print Assumptions C57_shuffle_x32_partial.

Theorem C57_shuffle_x32_refuted : exists scno, scno < 2^64 /\ shuffle_x32 (shuffle_x32 scno 0) 0 <> scno.
Proof. exists (2^64 - 1 - X32_SYSCALL_BIT). split; [vm_compute; reflexivity|vm_compute; discriminate]. Qed.
Print Assumptions C57_shuffle_x32_refuted.

Theorem C57_shuffle_ia64 : forall scno pers, shuffle_ia64 (shuffle_ia64 scno pers) pers = scno.
Proof. intros. apply lxor_invol. Qed.
Print Assumptions C57_shuffle_ia64.

(** ARM: for every placement of the remapped block below the private numbers. *)
Theorem C57_shuffle_arm : forall first scno, first + 1 + ARM_LAST_SPECIAL < 983040 ->
  shuffle_arm first (shuffle_arm first scno) = scno.
Proof.
  intros first scno H. unfold ARM_LAST_SPECIAL in *.
  assert (E : shuffle_arm first scno = shuffle_arm first scno) by reflexivity.
  unfold shuffle_arm at 2 in E. unfold ARM_LAST_SPECIAL in E.
  set (r := shuffle_arm first scno) in *. clearbody r.
  repeat match type of E with context[if ?b then _ else _] => destruct b eqn:? end;
  unfold shuffle_arm, ARM_LAST_SPECIAL;
  repeat match goal with |- context[if ?b then _ else _] => destruct b eqn:? end; lia.
Qed.
Print Assumptions C57_shuffle_arm.

Theorem C57_shuffle_aarch64 : forall first scno pers, first + 1 + ARM_LAST_SPECIAL < 983040 ->
  shuffle_aarch64 first (shuffle_aarch64 first scno pers) pers = scno.
Proof.
  intros. unfold shuffle_aarch64. destruct (Nat.eqb pers 1); [apply C57_shuffle_arm; auto|reflexivity].
Qed.
Print Assumptions C57_shuffle_aarch64.

(** numbers in unsigned int range stay in it, on the architectures that use
    the syscall-number option with shuffling *)
Theorem C57_shuffle_range : forall scno pers, scno < 2^32 ->
  shuffle_x86_64 scno pers < 2^32 /\ shuffle_x32 scno pers < 2^32 /\ shuffle_ia64 scno pers < 2^32 /\
  forall first, first + 7 < 983040 -> shuffle_aarch64 first scno pers < 2^32.
Proof.
  intros scno pers H. unfold shuffle_x86_64, shuffle_x32, shuffle_ia64, shuffle_aarch64.
  change X32_SYSCALL_BIT with (2^30). change SYSCALLENT_BASE_NR with (2^10).
  pose proof (lxor_pow2_lt scno 30 32 H ltac:(lia)). pose proof (lxor_pow2_lt scno 10 32 H ltac:(lia)).
  repeat split.
  - destruct (Nat.eqb pers 2); auto.
  - destruct (_ && _); auto.
  - auto.
  - intros first Hf. destruct (Nat.eqb pers 1); auto. unfold shuffle_arm, ARM_LAST_SPECIAL.
    repeat match goal with |- context[if ?b then _ else _] => destruct b eqn:? end; lia.
Qed.
Print Assumptions C57_shuffle_range.

Example ex_arm : map (shuffle_arm 500) [499; 500; 501; 507; 508; 983040; 983046; 1048560]
  = [499; 1048560; 983040; 983046; 508; 501; 507; 500].
Proof. vm_compute. reflexivity. Qed.
Example ex_x86 : shuffle_x86_64 1 2 = 1073741825 /\ shuffle_x86_64 1 0 = 1.
Proof. vm_compute. auto. Qed.
