(** C06-C08: the seccomp-bpf programs. *)
From Verif Require Import Base SeccompModel SeccompSpec SeccompProofs.
Local Open Scope N_scope.

(** C06: the linear program answers TRACE exactly on the numbers that must be
    traced and on out-of-table numbers, on every architecture and number. *)
Theorem C06_linear_filter_exact : forall ps prog arch nr,
  perss_ok ps -> arch < 2^32 -> nr < 2^32 ->
  linear_filter_generator ps = Some prog ->
  run_bpf prog arch nr = Some (verdict RET_TRACE ps arch nr).
Proof. exact linear_correct. Qed.
Print Assumptions C06_linear_filter_exact.

(** C07, the part that holds: the bitmap program agrees with the traced set on
    every in-table number.
    Partial: numbers beyond the table, see the refuted theorem. *)
Theorem C07_binary_filter_partial : forall ps prog arch nr,
  perss_ok ps -> arch < 2^32 -> nr < 2^32 -> in_table ps arch nr ->
  binary_match_filter_generator ps = Some prog ->
  run_bpf prog arch nr = Some (verdict RET_TRACE ps arch nr).
Proof.
  intros. rewrite (verdict_in_table _ RET_ALLOW) by auto. apply binary_correct; auto.
Qed.
Print Assumptions C07_binary_filter_partial.

(** What the bitmap program does on every number, in or out of the table. *)
Theorem C07_binary_filter_characterised : forall ps prog arch nr,
  perss_ok ps -> arch < 2^32 -> nr < 2^32 ->
  binary_match_filter_generator ps = Some prog ->
  run_bpf prog arch nr = Some (verdict RET_ALLOW ps arch nr).
Proof. exact binary_correct. Qed.
Print Assumptions C07_binary_filter_characterised.

(** x86_64-like layout: 64-bit, i386, x32 *)
Definition ex_pers : list pers :=
  [ {| p_arch := 3221225534; p_flag := 0; traced := [true; false; false; true; true] |};
    {| p_arch := 1073741827; p_flag := 0; traced := [false; true] |};
    {| p_arch := 3221225534; p_flag := 1073741824; traced := [true; false; true] |} ].

Example ex_pers_ok : perss_ok ex_pers.
Proof.
  split; [|split; [discriminate|discriminate]].
  apply Forall_cons; [|apply Forall_cons; [|apply Forall_cons; [|apply Forall_nil]]];
    (split; [cbn; lia|split; [cbn; lia|]]); [left; reflexivity|left; reflexivity|].
  right. exists 30. cbn [p_flag traced length]. lia.
Qed.

(** C07 in full is false: a number outside the table is let through. *)
Theorem C07_out_of_table_refuted : exists ps prog arch nr,
  perss_ok ps /\ arch < 2^32 /\ nr < 2^32 /\
  binary_match_filter_generator ps = Some prog /\
  verdict RET_TRACE ps arch nr = RET_TRACE /\ run_bpf prog arch nr = Some RET_ALLOW.
Proof.
  exists ex_pers.
  destruct (binary_match_filter_generator ex_pers) as [prog|] eqn:E; [|vm_compute in E; discriminate].
  exists prog, 3221225534, 77. split; [exact ex_pers_ok|]. split; [lia|]. split; [lia|].
  split; [reflexivity|]. split; [reflexivity|].
  vm_compute in E. inversion E; subst. reflexivity.
Qed.
Print Assumptions C07_out_of_table_refuted.

(** C08: the program installed was generated without offset overflow, is no
    longer than any other candidate nor than the kernel's limit, all its jumps
    land inside it, it ends with a RET, and it answers correctly on every in-table
    number. *)
Theorem C08_installed_program_sound : forall ps prog,
  perss_ok ps -> check_seccomp_filter_properties ps = Some prog ->
  N.of_nat (length prog) <= 4096 /\
  (forall q, linear_filter_generator ps = Some q \/ binary_match_filter_generator ps = Some q ->
             (length prog <= length q)%nat) /\
  jumps_inside prog /\
  (exists l, prog = l ++ [stmt RET RET_TRACE]) /\
  (forall arch nr, arch < 2^32 -> nr < 2^32 -> in_table ps arch nr ->
     run_bpf prog arch nr = Some (verdict RET_TRACE ps arch nr)).
Proof.
  intros ps prog Hok Hsel. destruct (selection _ _ Hsel) as (HG & HL & H1 & H2).
  destruct Hok as (HP & Hne & Hone).
  split; [exact HL|]. split; [intros q [Hq|Hq]; auto|]. split; [|split].
  - apply vj_inside. destruct HG; [eapply linear_vj|eapply binary_vj]; eauto.
  - destruct HG; [eapply linear_last|eapply binary_last]; eauto.
  - intros arch nr Ha Hn Hin. destruct HG as [HG|HG].
    + apply linear_correct; auto. repeat split; auto.
    + rewrite (verdict_in_table _ RET_ALLOW) by auto. apply binary_correct; auto. repeat split; auto.
Qed.
Print Assumptions C08_installed_program_sound.

(** C08: filtering stays on whenever either candidate is usable. *)
Theorem C08_usable_candidate_installed : forall ps q,
  linear_filter_generator ps = Some q \/ binary_match_filter_generator ps = Some q ->
  N.of_nat (length q) <= 4096 -> exists prog, check_seccomp_filter_properties ps = Some prog.
Proof.
  intros ps q HG HL. destruct (check_seccomp_filter_properties ps) as [p|] eqn:E; [eauto|exfalso].
  unfold check_seccomp_filter_properties, pick, BPF_MAXINSNS in E.
  destruct (linear_filter_generator ps) as [a|], (binary_match_filter_generator ps) as [b|];
    destruct HG as [HG|HG]; inversion HG; subst;
    try (destruct (N.ltb_spec (N.of_nat (length a)) 65535));
    repeat match goal with H : context[if N.ltb ?x ?y then _ else _] |- _ => destruct (N.ltb_spec x y) end;
    try match goal with H : context[Nat.ltb ?x ?y] |- _ => destruct (Nat.ltb_spec x y) end;
    try discriminate; try lia.
Qed.
Print Assumptions C08_usable_candidate_installed.

(** non-vacuity *)
Example ex_linear_runs : exists prog, linear_filter_generator ex_pers = Some prog /\
  run_bpf prog 3221225534 (1073741824 + 2) = Some RET_TRACE /\
  run_bpf prog 3221225534 (1073741824 + 1) = Some RET_ALLOW /\
  run_bpf prog 3221225534 1 = Some RET_ALLOW /\
  run_bpf prog 1073741827 1 = Some RET_TRACE /\
  run_bpf prog 5 1 = Some RET_TRACE.
Proof. eexists. split; [reflexivity|]. vm_compute. auto. Qed.
Example ex_installed : exists prog, check_seccomp_filter_properties ex_pers = Some prog /\ length prog = 26%nat.
Proof. eexists. split; vm_compute; reflexivity. Qed.
Example ex_in_table : in_table ex_pers 3221225534 (1073741824 + 2).
Proof. reflexivity. Qed.
(** a personality with more than 255 instructions is refused by the linear generator *)
Example ex_overflow :
  linear_filter_generator [ {| p_arch := 1; p_flag := 0;
    traced := concat (repeat [true; false] 300) |} ] = None.
Proof. vm_compute. reflexivity. Qed.

(** What "must be traced" means for a call of the table: the user asked for it, or strace has to see it
    itself: it is a subcall of socketcall or ipc (flag 02000), one it always follows (04000000), with -k
    one that changes the memory map (0400), and with --decode-pids=comm one that changes the name of the
    process (040000000), see src/sysent.h:29-44. *)
Theorem C06_traced : forall stack_trace comm flags asked,
  traced_by_seccomp stack_trace comm flags asked = true <->
  asked = true \/ N.testbit flags 10 = true \/ N.testbit flags 20 = true \/
  (stack_trace = true /\ N.testbit flags 8 = true) \/ (comm = true /\ N.testbit flags 23 = true).
Proof.
  intros st cm f a. unfold traced_by_seccomp. rewrite orb_true_iff, negb_true_iff, N.eqb_neq.
  assert (A : forall m, N.land f m <> 0 <-> exists n, N.testbit f n = true /\ N.testbit m n = true).
  { intros m. split.
    - intros H. exists (N.log2 (N.land f m)). pose proof (N.bit_log2 _ H) as B. rewrite N.land_spec in B. apply andb_true_iff in B. exact B.
    - intros (n & F & G) Z. pose proof (N.land_spec f m n) as L. rewrite Z, F, G, N.bits_0 in L. discriminate L. }
  rewrite A. change 1024 with (2 ^ 10). change 1048576 with (2 ^ 20). change 256 with (2 ^ 8). change 8388608 with (2 ^ 23). split.
  - intros [(n & F & G)|H]; [|auto]. rewrite !N.lor_spec, !N.pow2_bits_eqb in G.
    destruct (N.eqb_spec 10 n); [subst; auto|]. destruct (N.eqb_spec 20 n); [subst; auto|]. cbn [orb] in G.
    destruct st, cm; cbn [orb] in G; rewrite ?N.pow2_bits_eqb, ?N.bits_0 in G; destruct (N.eqb_spec 8 n), (N.eqb_spec 23 n); subst; try discriminate G; try lia; try discriminate; intuition auto.
  - intros [H|[H|[H|[[-> H]|[-> H]]]]]; [auto| | | |]; left; eexists; (split; [exact H|]); rewrite !N.lor_spec, !N.pow2_bits_eqb; [reflexivity|reflexivity| |];
    [change (8 =? 8) with true; rewrite ?orb_true_r; reflexivity|change (23 =? 23) with true; rewrite ?orb_true_r; reflexivity].
Qed.
Print Assumptions C06_traced.
Example C06_traced_example : traced_by_seccomp true false 256 false = true /\ traced_by_seccomp false false 256 false = false /\ traced_by_seccomp false true 8388608 false = true.
Proof. repeat split. Qed.
