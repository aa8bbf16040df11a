(** C64: the result of a call is shown as it is. *)
From Coq Require Import String.
From Verif Require Import Base Printf QuoteModel XlatModel XlatText TimeModel TimeSpec TimeProofs RetModel RetSpec RetProofs.
Import List.
Local Open Scope N_scope.

(** A call that did not fail: reading the line gives back the value the call returned (in the width of the
    tracee's kernel long), no error, the notes, and the time.  Missing: process IDs that do not fit an int. *)
Theorem C64_success_partial : forall strerror c v e,
  call_ok strerror c -> v < 2^64 -> ~ fails c e ->
  (k8 c = true -> israw c = false -> fmt c = PID -> v < 2^31) ->
  exists r, read_result (print_result strerror c v e) = Some r /\
    error r = None /\ texts r = notes c /\ time_right c (time r) /\
    (value r = None <-> israw c = false /\ none c = true) /\
    (forall z, value r = Some z -> same_mod (if k8 c || israw c then 64 else 32)%Z z v /\
       (israw c = true \/ (fmt c <> FD /\ fmt c <> PID) -> (0 <= z)%Z)).
Proof.
  intros strerror c v e K Hv NF Hpid. destruct (success_value c v Hv Hpid) as (x & V & Vn & Vz).
  destruct (err_read strerror c x _ 0 V K) as (tm & TR & _ & _ & R). rewrite print_success by exact NF. rewrite R.
  eexists. split; [reflexivity|]. cbn. auto 10.
Qed.
Print Assumptions C64_success_partial.

(** The missing part: a process ID outside the ints is shown as another number. *)
Theorem C64_pid_refuted : exists strerror c v r, call_ok strerror c /\ v < 2^64 /\ ~ fails c 0 /\
  read_result (print_result strerror c v 0) = Some r /\ value r = Some 1%Z /\ v = 4294967297 /\ k8 c = true.
Proof.
  exists (fun _ => []), {| k8 := true; israw := false; none := false; fmt := PID; aux := None; tampered := true; poked := false; delayed := false;
    tflag := None; etime := {| sec := 0; nsec := 0 |}; xtime := {| sec := 0; nsec := 0 |} |}, 4294967297. eexists. split; [|split; [lia|split; [|split; [vm_compute; reflexivity|split; [reflexivity|split; reflexivity]]]]].
  - unfold call_ok, normal, ns, quiet. cbn. repeat split; try lia; try discriminate; auto.
  - intros [X _]. apply X. reflexivity.
Qed.
Print Assumptions C64_pid_refuted.

(** A call that failed: reading the line gives back the error.  A known error is shown by its name and
    the text of the C library, an unknown one as "(errno N)"; the value is "?" if the kernel is to
    restart the call, and else the one returned. *)
Theorem C64_failure : forall strerror c v e,
  call_ok strerror c -> v < 2^64 -> fails c e ->
  exists r, read_result (print_result strerror c v e) = Some r /\ time_right c (time r) /\
    (restarts c e -> value r = None) /\
    (~ restarts c e -> exists z, value r = Some z /\ same_mod 64 z v /\ (- 2^63 <= z < 2^63)%Z) /\
    exists t, texts r = t :: notes c /\
    match error r with
    | Some name => In (name, e) linux_errors /\ (~ restarts c e -> t = strerror e)
    | None => (forall s, ~ In (s, e) linux_errors) /\ exists d, t = bs "errno " ++ d /\ rd_num 10 0 d = Some e
    end.
Proof.
  intros strerror c v e K Hv F. assert (D : restarts c e \/ ~ restarts c e).
  { unfold restarts. destruct (israw c); [right; intros [X _]; discriminate X|]. destruct (in_dec N.eq_dec e [512; 513; 514; 516]); [left; auto|right; intros [_ X]; contradiction]. }
  destruct D as [D|D].
  - destruct (print_restart strerror c v e F D) as (s & l & Es & Hl & ->). destruct (err_read strerror c _ _ e vtext_q K) as (tm & TR & R1 & _ & _).
    unfold print_erestart. rewrite R1 by auto. eexists. split; [reflexivity|]. cbn. split; [exact TR|]. split; [reflexivity|]. split; [contradiction|].
    exists l. split; [reflexivity|]. split; [apply errors_same, err_name_in; exact Es|contradiction].
  - rewrite print_failure by auto. unfold print_err_ret, print_val_d. destruct (err_read strerror c _ _ e (vtext_z (sgn64 v)) K) as (tm & TR & R1 & R2 & _).
    assert (Hq : quiet (strerror e)) by (destruct K as (_ & _ & _ & _ & Hq & _); apply Hq).
    assert (Hz : same_mod 64 (sgn64 v) v /\ (- 2^63 <= sgn64 v < 2^63)%Z).
    { split; [apply mod_sgn64; exact Hv|]. unfold sgn64. destruct (v <? 2^63) eqn:E; lia. }
    destruct (err_name e) as [s|] eqn:Es.
    + rewrite (R1 s (strerror e) eq_refl Hq). eexists. split; [reflexivity|]. cbn. split; [exact TR|]. split; [contradiction|].
      split; [intros _; exists (sgn64 v); split; [reflexivity|exact Hz]|]. exists (strerror e). split; [reflexivity|]. split; [apply errors_same, err_name_in; exact Es|auto].
    + change (sysret_next ++ bs "(errno " ++ pr_num 10 e ++ bs ")") with (sysret_string (bs "errno " ++ pr_num 10 e)).
      rewrite (R2 _ (err_text_quiet e)). eexists. split; [reflexivity|]. cbn. split; [exact TR|]. split; [contradiction|].
      split; [intros _; exists (sgn64 v); split; [reflexivity|exact Hz]|]. eexists. split; [reflexivity|]. split.
      * intros s I. apply errors_same in I as (s0 & I & _). unfold err_name in Es. destruct (find _ errnoent) as [x|] eqn:Ef; [discriminate Es|]. apply (find_none _ _ Ef) in I. cbn in I. lia.
      * eexists. split; [reflexivity|]. apply pr_num_rd. lia.
Qed.
Print Assumptions C64_failure.

(** The name tells which error it was. *)
Theorem C64_names : forall a b s, In (s, a) linux_errors -> In (s, b) linux_errors -> a = b.
Proof. intros a b s A B. apply errors_same in A as (x & A & ->). apply errors_same in B as (y & B & E). eapply nodup_names_inj; [apply names_nodup|exact A|exact B|exact E]. Qed.
Print Assumptions C64_names.

(** So the text tells the error: if the same is shown for two failed calls, they failed with the same error. *)
Theorem C64_same : forall strerror c1 c2 v1 v2 e1 e2,
  call_ok strerror c1 -> call_ok strerror c2 -> v1 < 2^64 -> v2 < 2^64 -> fails c1 e1 -> fails c2 e2 ->
  print_result strerror c1 v1 e1 = print_result strerror c2 v2 e2 -> e1 = e2.
Proof.
  intros strerror c1 c2 v1 v2 e1 e2 K1 K2 H1 H2 F1 F2 E.
  destruct (C64_failure strerror c1 v1 e1 K1 H1 F1) as (r1 & R1 & _ & _ & _ & t1 & T1 & X1).
  destruct (C64_failure strerror c2 v2 e2 K2 H2 F2) as (r2 & R2 & _ & _ & _ & t2 & T2 & X2).
  rewrite E in R1. assert (r1 = r2) by congruence. subst r2. assert (t1 = t2) by congruence. subst t2.
  destruct (error r1) as [name|].
  - destruct X1 as (I1 & _), X2 as (I2 & _). eapply C64_names; [exact I1|exact I2].
  - destruct X1 as (_ & d1 & D1 & E1), X2 as (_ & d2 & D2 & E2). rewrite D1 in D2. apply app_inv_head in D2. congruence.
Qed.
Print Assumptions C64_same.

(** Concrete calls. *)
Definition ex_call := {| k8 := true; israw := false; none := false; fmt := UDECIMAL; aux := Some (bs "Timeout"); tampered := true; poked := true; delayed := true;
  tflag := Some 6%nat; etime := {| sec := 7; nsec := 999999000 |}; xtime := {| sec := 9; nsec := 1234 |} |}.
Definition ex_strerror (e : N) : list N := bs "No such file or directory".
Example ex_call_ok : call_ok ex_strerror ex_call.
Proof.
  split; [intros w [= <-]; lia|]. split; [unfold normal; cbn; lia|]. split; [unfold normal; cbn; lia|]. split; [unfold ns; cbn; lia|].
  split; [intros e; unfold quiet, ex_strerror; noin|]. intros s E. injection E as <-. unfold quiet. noin.
Qed.
Example ex_success : ~ fails ex_call 0 /\ print_result ex_strerror ex_call 3 0 = bs "= 3 (Timeout) (INJECTED: args, retval) (DELAYED) <1.000002>".
Proof. split; [intros [X _]; apply X; reflexivity|vm_compute; reflexivity]. Qed.
Example ex_failure : fails ex_call 2 /\ ~ restarts ex_call 2 /\
  print_result ex_strerror ex_call (2^64 - 1) 2 = bs "= -1 ENOENT (No such file or directory) (Timeout) (INJECTED: args, retval) (DELAYED) <1.000002>".
Proof. split; [split; [discriminate|right; reflexivity]|]. split; [intros [_ H]; cbn in H; lia|vm_compute; reflexivity]. Qed.
Example ex_restart : restarts ex_call 512 /\ fails ex_call 512 /\
  print_result ex_strerror ex_call (2^64 - 1) 512 = bs "= ? ERESTARTSYS (To be restarted if SA_RESTART is set) (Timeout) (INJECTED: args, retval) (DELAYED) <1.000002>".
Proof. split; [split; [reflexivity|cbn; auto]|]. split; [split; [discriminate|right; reflexivity]|vm_compute; reflexivity]. Qed.
Example ex_unknown : print_result ex_strerror ex_call (2^64 - 1) 4000 = bs "= -1 (errno 4000) (Timeout) (INJECTED: args, retval) (DELAYED) <1.000002>".
Proof. vm_compute; reflexivity. Qed.
