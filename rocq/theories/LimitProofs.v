(** The limit of system calls in the event loop. *)
From Verif Require Import Base TimeModel WaitModel TcbModel LogModel LoopModel LoopFrame LimitSpec.
Local Open Scope N_scope.

Ltac lk0 :=
  match goal with
  | H : Ok _ = Ok _ |- _ => inv_ok H
  | H : Die = Ok _ |- _ => discriminate H
  | H : Undef = Ok _ |- _ => discriminate H
  | H : (_, _) = (_, _) |- _ => inv_ok H
  | H : rbind _ _ = Ok _ |- _ => apply rbind_ok in H as (? & ? & H)
  end.
Ltac lkd :=
  match goal with
  | H : (match ?x with _ => _ end) = Ok _ |- _ => destruct x
  | H : (match ?x with _ => _ end) = (_, _) |- _ => destruct x
  end.
Ltac lk := cbv zeta in *; repeat (lk0 || lkd).
Ltac fin := cbn in *; try reflexivity; try congruence.

Lemma pr_lim s f s' : pr s f = Ok s' -> limit s' = limit s. Proof. unfold pr. intros E. lk. reflexivity. Qed.
Lemma tpr_lim s xs s' : tpr s xs = Ok s' -> limit s' = limit s. Proof. apply pr_lim. Qed.
Lemma leader_lim c s i s' : leader c s i = Ok s' -> limit s' = limit s. Proof. apply pr_lim. Qed.
Lemma message_lim c s i t x s' : message c s i t x = Ok s' -> limit s' = limit s. Proof. apply pr_lim. Qed.
Lemma end_line_lim s : limit (end_line s) = limit s. Proof. reflexivity. Qed.
Lemma ptrace_restart_lim o s i sig err b s' : ptrace_restart o s i sig err = Ok (b, s') -> limit s' = limit s.
Proof. unfold ptrace_restart. intros E. lk; try match goal with H : tpr _ _ = Ok _ |- _ => apply tpr_lim in H end; fin. Qed.
Lemma new_tcb_lim s p i s' : new_tcb s p = Ok (i, s') -> limit s' = limit s.
Proof. unfold new_tcb. intros E. lk; fin. Qed.
Lemma attached_lim c s i fs : limit (attached c s i fs) = limit s.
Proof.
  unfold attached. cbv zeta. cbn [with_lg limit]. assert (H : forall s, limit (fold_left (fun s f => setf s i f true) fs s) = limit s); [|rewrite H; reflexivity].
  induction fs as [|f r IH]; intros s0; [reflexivity|]. cbn [fold_left]. rewrite IH. reflexivity.
Qed.
Lemma droptcb_lim c s i s' : droptcb c s i = Ok s' -> limit s' = limit s.
Proof. unfold droptcb. intros E. lk; try match goal with H : pr _ _ = Ok _ |- _ => apply pr_lim in H end; fin. Qed.
Lemma dois_lim c s i a b s' : detach_or_interrupt_or_stop c s i a = (b, s') -> limit s' = limit s.
Proof. unfold detach_or_interrupt_or_stop. intros E. lk; fin. Qed.
Lemma dios_lim c s i st0 err b s' : detach_interrupted_or_stopped c s i st0 err = Ok (b, s') -> limit s' = limit s.
Proof. unfold detach_interrupted_or_stopped. intros E. lk; repeat match goal with H : ptrace_restart _ _ _ _ _ = Ok _ |- _ => apply ptrace_restart_lim in H end; fin. Qed.
Lemma detach_wait_lim c ws : forall s i s', detach_wait c s i ws = Ok s' -> limit s' = limit s.
Proof.
  induction ws as [|w r IH]; intros s i s' E; cbn [detach_wait] in E; [lk; reflexivity|]. destruct w as [[]|]; [apply IH in E; exact E|lk; reflexivity|].
  apply rbind_ok in E as ([d s1] & E1 & E). apply dios_lim in E1. destruct d; [lk; exact E1|]. apply IH in E. congruence.
Qed.
Lemma detach_lim c s i a ws s' : detach c s i a ws = Ok s' -> limit s' = limit s.
Proof.
  unfold detach. destruct (detach_or_interrupt_or_stop c s i a) as [w s1] eqn:D. apply dois_lim in D. intros E. apply rbind_ok in E as (s2 & E1 & E). apply droptcb_lim in E.
  destruct w; [apply detach_wait_lim in E1|lk]; congruence.
Qed.
Lemma delay_lim s i d n n' : limit (delay_tcb s i d n n') = limit s.
Proof. unfold delay_tcb, arm_delay_timer. destruct (_ && _); reflexivity. Qed.

(** ** System calls *)
Lemma entering_decode_lim c s i e r s' : syscall_entering_decode c s i e = Ok (r, s') -> limit s' = limit s.
Proof. intros E. apply entering_decode_keep in E. apply E. Qed.
Lemma entering_trace_lim c s i rec e d sg s' : syscall_entering_trace c s i rec e = Ok (d, sg, s') -> limit s' = limit s.
Proof.
  unfold syscall_entering_trace. cbv zeta. set (s1 := if fl s i HIDE_LOG && e_exec e then _ else s). assert (K : limit s1 = limit s) by (unfold s1; destruct (_ && _); reflexivity). clearbody s1.
  destruct (_ || _); [intros E; lk; exact K|]. set (s2 := setf s1 i FILTERED false). assert (K2 : limit s2 = limit s) by exact K. clearbody s2. set (s3 := if negb (fl s i HIDE_LOG) && negb rec then _ else s2).
  assert (K3 : limit s3 = limit s). { unfold s3. destruct (_ && _); [|exact K2]. destruct (e_delay e) as [[[x y] z]|]; destruct (e_xdelay e); cbn [setf with_fl limit]; rewrite ?delay_lim; exact K2. }
  clearbody s3. destruct (c_stats c); [intros E; lk; exact K3|]. intros E. apply rbind_ok in E as (s4 & E1 & E). apply rbind_ok in E as (s5 & E2 & E). apply leader_lim in E1. apply tpr_lim in E2. lk. destruct (c_all (lc c)); cbn [with_lg limit] in E1; congruence.
Qed.
Definition minus (x : Z) (b : bool) : Z := if (x =? -1)%Z then x else (x - (if b then 1 else 0))%Z.
Lemma minus_false x : minus x false = x. Proof. unfold minus. destruct (_ =? _)%Z; lia. Qed.
Lemma exiting_trace_lim c s i rc e r s' : syscall_exiting_trace c s i rc e = Ok (r, s') -> limit s' = minus (limit s) ((rc =? 1)%Z && selected c e).
Proof.
  unfold syscall_exiting_trace. cbv zeta. set (s1 := if fl s i INJECT_DELAY_EXIT then _ else s).
  assert (K : limit s1 = limit s) by (unfold s1; destruct (fl s i INJECT_DELAY_EXIT); [destruct (x_delay e) as [[x y] z]; apply delay_lim|reflexivity]). clearbody s1.
  intros E. apply rbind_ok in E as (s2 & E1 & E). assert (K2 : limit s2 = limit s). { destruct (c_stats c); [lk; exact K|]. apply rbind_ok in E1 as ([rr l] & _ & E1). destruct rr; lk; exact K. } clear E1 K s1.
  destruct (rc =? 1)%Z; cbn [negb andb] in *.
  - apply rbind_ok in E as (s3 & E1 & E). assert (K3 : limit s3 = limit s) by (destruct (_ || _); [lk|apply tpr_lim in E1]; congruence). clear E1 K2. apply rbind_ok in E as (s4 & E1 & E).
    assert (K4 : limit s4 = limit s) by (destruct (_ || _) in E1; [lk|apply pr_lim in E1]; congruence). clear E1 K3. fold (selected c e) in E. destruct (selected c e); cbn [negb] in E.
    + assert (A : forall s5, limit s5 = minus (limit s) true -> (if c_stats c then Ok (0%Z, s5) else rlet s := tpr s5 [Ret (x_ret e); Nl (x_extra e)] in Ok (0%Z, end_line s)) = Ok (r, s') -> limit s' = minus (limit s) true).
      { intros s5 K5 E5. destruct (c_stats c); [lk; exact K5|]. apply rbind_ok in E5 as (s6 & E6 & E5). apply tpr_lim in E6. lk. rewrite end_line_lim. congruence. }
      apply (A (if (limit s4 =? -1)%Z then s4 else set_limit s4 (limit s4 - 1))); [|exact E]. unfold minus. rewrite <- K4. destruct (limit s4 =? -1)%Z; reflexivity.
    + rewrite minus_false. destruct (c_stats c); lk; rewrite ?end_line_lim; exact K4.
  - rewrite minus_false. destruct (c_stats c); [lk; exact K2|]. apply rbind_ok in E as (s3 & E1 & E). apply tpr_lim in E1. apply rbind_ok in E as (s4 & E2 & E). lk; rewrite ?end_line_lim; [congruence|]. apply pr_lim in E2. congruence.
Qed.
Lemma trace_lim c s i rec e r sg s' : trace_syscall c s i rec e = Ok (r, sg, s') ->
  limit s' = minus (limit s) (fl s i INSYSCALL && negb (fl s i FILTERED) && (x_res e =? 1)%Z && selected c e).
Proof.
  unfold trace_syscall. destruct (fl s i INSYSCALL) eqn:IS; cbn [negb andb].
  - unfold syscall_exiting_decode. destruct (fl s i FILTERED); cbn [negb andb].
    + intros E. cbn in E. lk. rewrite minus_false. reflexivity.
    + intros E. apply rbind_ok in E as ([r2 s2] & E1 & E). inv_ok E. change (limit (syscall_exiting_finish s2 i)) with (limit s2).
      assert (L : limit (if fl s i CHECK_EXEC_SYSCALL then setf s i HIDE_LOG true else s) = limit s) by (destruct (fl s i CHECK_EXEC_SYSCALL); reflexivity).
      destruct (x_res e =? 0)%Z eqn:Z0; [|apply exiting_trace_lim in E1; rewrite L in E1; exact E1].
      replace (x_res e =? 1)%Z with false by (symmetry; apply Z.eqb_neq; apply Z.eqb_eq in Z0; lia). inversion E1. cbn [andb]. rewrite minus_false. congruence.
  - rewrite minus_false. intros E. apply rbind_ok in E as ([r1 s1] & E1 & E). apply entering_decode_lim in E1. destruct (r1 =? 0)%Z; [lk; exact E1|]. destruct (r1 =? 1)%Z; [|lk; exact E1].
    apply rbind_ok in E as ([[d sg1] s2] & E2 & E). apply entering_trace_lim in E2. lk. change (limit (syscall_entering_finish s2 i d)) with (limit s2). congruence.
Qed.

(** ** Events *)
Lemma switch_lim c s i r s' : maybe_switch_tcbs c s i = Ok (r, s') -> limit s' = limit s.
Proof.
  unfold maybe_switch_tcbs. cbv zeta. destruct (negb (c_os3 c)); [intros E; lk; reflexivity|]. destruct (_ || _); [intros E; lk; reflexivity|]. destruct (_ <? _)%Z; [intros E; lk; reflexivity|].
  destruct (pid2tcb _ _) as [t [j|]]; [|intros E; lk; reflexivity]. intros E. apply rbind_ok in E as (s1 & E1 & E). apply pr_lim in E1. apply rbind_ok in E as (s2 & E2 & E). apply droptcb_lim in E2. cbn [with_tb limit] in *.
  apply rbind_ok in E as (s3 & E3 & E). inv_ok E. destruct (c_stats c); [lk; cbn; congruence|]. apply rbind_ok in E3 as (s4 & E4 & E3). assert (K : limit s4 = limit s2) by (destruct (c_qthread c); [lk; reflexivity|]; apply message_lim in E4; exact E4).
  inversion E3. destruct (c_all (lc c)); cbn; congruence.
Qed.
Lemma switch_current_lim c s i r s' : maybe_switch_current_tcp c s i = Ok (r, s') -> limit s' = limit s.
Proof. unfold maybe_switch_current_tcp. intros E. apply rbind_ok in E as ([r1 s1] & E1 & E). apply switch_lim in E1. destruct r1; lk; exact E1. Qed.
Lemma signalled_lim c s i st0 s' : print_signalled c s i st0 = Ok s' -> limit s' = limit s.
Proof. unfold print_signalled. cbv zeta. intros E. destruct (P s i =? child s); (destruct (_ && _); [apply message_lim in E; exact E|lk; reflexivity]). Qed.
Lemma exited_lim c s i st0 s' : print_exited c s i st0 = Ok s' -> limit s' = limit s.
Proof. unfold print_exited. cbv zeta. intros E. destruct (P s i =? child s); (destruct (_ && _); [apply message_lim in E; exact E|lk; reflexivity]). Qed.
Lemma stopped_lim c s i g e s' : print_stopped c s i g e = Ok s' -> limit s' = limit s.
Proof. unfold print_stopped. intros E. destruct (_ && _); [apply message_lim in E; exact E|lk; reflexivity]. Qed.
Lemma exit_event_lim c s i s' : exit_event c s i = Ok s' -> limit s' = limit s.
Proof. unfold exit_event. intros E. destruct (_ || _); [lk; reflexivity|]. apply rbind_ok in E as ([r l] & _ & E). destruct r; lk; reflexivity. Qed.
Lemma resume_lim s i wd o g e b s' : resume s i wd o g e = Ok (b, s') -> limit s' = limit s.
Proof.
  unfold resume. cbv zeta. set (s1 := if e_intr e =? 0 then s else _). assert (K : limit s1 = limit s) by (unfold s1; destruct (_ =? _); reflexivity). clearbody s1. intros E.
  destruct (negb _); [lk; exact K|]. destruct (fl s1 i DELAYED); [lk; exact K|]. apply rbind_ok in E as ([ok s2] & E1 & E). apply ptrace_restart_lim in E1. destruct ok; lk; cbn; congruence.
Qed.
Lemma dispatch_lim c s wd e b s' : dispatch_event c s (Some wd) e = Ok (b, s') ->
  limit s' = minus (limit s) (match current (lg s) with Some i => captured_at c s i wd e | None => false end).
Proof.
  unfold dispatch_event, captured_at, syscall_stop. intros E.
  assert (SYS : forall i op1, rbind (trace_syscall c s i false e) (fun '(r, sig, s1) => if (r <? 0)%Z then Ok (true, s1) else resume s1 i wd (if fl s1 i SECCOMP_FILTER then if fl s1 i INSYSCALL then OP_SYSCALL else OP_CONT else op1) sig e) = Ok (b, s') ->
    limit s' = minus (limit s) (fl s i INSYSCALL && negb (fl s i FILTERED) && (x_res e =? 1)%Z && selected c e)).
  { clear E. intros i op1 E. apply rbind_ok in E as ([[r sg] s1] & E1 & E). apply trace_lim in E1. destruct (r <? 0)%Z; [lk; exact E1|]. apply resume_lim in E. congruence. }
  destruct (te wd) eqn:T; cbn [andb];
    try (replace (match current (lg s) with Some _ => false | None => false end) with false by (destruct (current (lg s)); reflexivity); rewrite minus_false).
  1, 2: solve [lk; reflexivity]. all: destruct (current (lg s)) as [i|]; [|discriminate E]. all: cbv zeta in E.
  all: try solve [apply resume_lim in E; exact E].
  all: try solve [apply (SYS _ _ E)].
  all: try solve [apply rbind_ok in E as (s1 & E1 & E); apply stopped_lim in E1; apply resume_lim in E; congruence].
  all: try solve [apply rbind_ok in E as (s1 & E1 & E); first [apply signalled_lim in E1|apply exited_lim in E1]; apply rbind_ok in E as (s2 & E2 & E); apply droptcb_lim in E2; lk; congruence].
  all: try solve [apply rbind_ok in E as (s1 & E1 & E); apply exit_event_lim in E1; apply resume_lim in E; congruence].
  all: try solve [apply rbind_ok in E as (s1 & E1 & E); apply stopped_lim in E1; destruct (c_seize c); apply resume_lim in E; congruence].
  - apply rbind_ok in E as ([sw s1] & E1 & E). apply switch_current_lim in E1. cbn [setf with_fl limit] in E1. destruct (current (lg s1)) as [j|]; [|discriminate E].
    apply rbind_ok in E as ([[bad sg] s2] & E2 & E). assert (K : limit s2 = limit s).
    { destruct (match sw with None => _ | Some _ => _ end) eqn:Q; [|inversion E2; subst; exact E1]. apply rbind_ok in E2 as ([[r sg1] s3] & E2 & E3). apply trace_lim in E2. destruct sw; [discriminate Q|]. apply negb_true_iff in Q. rewrite Q in E2. cbn [andb] in E2. rewrite minus_false in E2. inversion E3; subst. clear E. congruence. }
    destruct bad; [lk; exact K|]. destruct (c_detexec c); [|apply resume_lim in E; congruence]. destruct (fl s2 j SKIP_DETACH_ON_FIRST_EXEC); [apply resume_lim in E; exact (eq_trans E K)|].
    apply rbind_ok in E as (s3 & E3 & E). apply detach_lim in E3. inversion E; subst. congruence.
  - destruct (fl s i SECCOMP_FILTER); cbn [negb andb] in *; [|rewrite minus_false; apply resume_lim in E; exact E]. destruct (c_secbefore c); cbn [negb andb]; [rewrite minus_false; apply resume_lim in E; exact E|]. apply (SYS _ _ E).
Qed.
(** ** The next event *)
Lemma restart_delayed_lim c now es is : forall s next b s', restart_delayed_from c s now is next es = Ok (b, s') -> limit s' = limit s.
Proof.
  induction is as [|i r IH]; intros s next b s' E; cbn [restart_delayed_from] in E; [destruct next; lk; reflexivity|]. destruct (_ && _); [|apply IH in E; exact E].
  destruct (0 <? _)%Z; [|apply IH in E; exact E]. apply rbind_ok in E as ([ok s1] & E1 & E). assert (K : limit s1 = limit s).
  { unfold restart_delayed_tcb in E1. cbv zeta in E1. apply rbind_ok in E1 as ([ok1 s2] & E1 & E2). apply dispatch_lim in E1. unfold captured_at, syscall_stop in E1. cbn [with_lg set_current lg current te andb] in E1. rewrite minus_false in E1. inversion E2; subst; exact E1. }
  destruct ok; [apply IH in E; congruence|lk; exact K].
Qed.
Lemma timer_lim c s now es s' : timer_sighandler c s now es = Ok s' -> limit s' = limit s.
Proof. unfold timer_sighandler, restart_delayed_tcbs. cbv zeta. intros E. destruct (rfail _); [lk; reflexivity|]. apply rbind_ok in E as ([ok s1] & E1 & E). apply restart_delayed_lim in E1. destruct ok; lk; exact E1. Qed.
Lemma allocate_lim c s pid st0 r s' : maybe_allocate_tcb c s pid st0 = Ok (r, s') -> limit s' = limit s.
Proof. unfold maybe_allocate_tcb. intros E. destruct (negb _); [destruct (_ && _); lk; reflexivity|]. destruct (c_follow c); [|lk; reflexivity]. apply rbind_ok in E as ([i s1] & E1 & E). apply new_tcb_lim in E1. lk; rewrite attached_lim; exact E1. Qed.
Lemma collect_lim c ws : forall s nh pos r s', collect c s nh pos ws = Ok (r, s') -> limit s' = limit s.
Proof.
  induction ws as [|w rest IH]; intros s nh pos r s' E; cbn [collect] in E; [lk; reflexivity|]. destruct w as [errno|pid status siok msg]; [lk; reflexivity|].
  destruct (pid =? 0); [lk; reflexivity|]. destruct (pid =? popen s); [destruct (WIFSTOPPED status); lk; reflexivity|]. destruct (pid2tcb _ _) as [t found]. cbv zeta in E. apply rbind_ok in E as ([f s1] & E1 & E).
  assert (K : limit s1 = limit s) by (destruct found; [lk; reflexivity|]; apply allocate_lim in E1; exact E1). clear E1. destruct f as [i|]; [|apply IH in E; congruence].
  destruct (classify _ _ _ _ _) as [wd clr]. set (s2 := enqueue _ _ _ _) in E. assert (K2 : limit s2 = limit s) by (unfold s2, enqueue; destruct clr; exact K). clearbody s2. destruct (extra (qu s2)); [lk; exact K2|]. apply IH in E. congruence.
Qed.
Lemma event_exit_lim c s i oe gn w s' : event_exit c s i oe gn = Ok (w, s') -> limit s' = limit s.
Proof.
  unfold event_exit. intros E. apply rbind_ok in E as (s1 & E1 & E). assert (K : limit s1 = limit s); [|lk; exact K]. destruct (fl s i STARTUP); [|lk; reflexivity]. unfold startup_tcb in E1. cbv zeta in E1.
  destruct (_ && _); [discriminate E1|]. destruct (fl (setf s i STARTUP false) i GRABBED); inversion E1; reflexivity.
Qed.
Lemma get_tcp_lim c s oe gn w s' : get_tcp c s oe gn = Ok (w, s') -> limit s' = limit s.
Proof. unfold get_tcp. cbv zeta. intros E. destruct (pending (qu s)); [lk; reflexivity|]. apply event_exit_lim in E. exact E. Qed.
Lemma next_event_lim c s n w s' : next_event c s n = Ok (w, s') -> limit s' = limit s.
Proof.
  unfold next_event. cbv zeta. set (s1 := if n_intr n =? 0 then s else _). assert (K : limit s1 = limit s) by (unfold s1; destruct (_ =? _); reflexivity). clearbody s1. intros E. rewrite <- K. clear K.
  destruct (negb _); [lk; reflexivity|]. destruct (limit s1 =? 0)%Z; [lk; reflexivity|]. destruct (pending (qu s1)); [|apply get_tcp_lim in E; exact E].
  destruct (extra (qu s1)) as [[i idx]|]; [apply event_exit_lim in E; exact E|]. destruct (_ && _); [lk; reflexivity|]. apply rbind_ok in E as ([stop s2] & E1 & E).
  assert (K2 : limit s2 = limit s1). { destruct (armed (dl s1)); [|lk; reflexivity]. apply rbind_ok in E1 as (s3 & E1 & E2). inversion E2; subst. destruct (n_timer n) as [[now es]|]; [apply timer_lim in E1; exact E1|inversion E1; subst; reflexivity]. }
  destruct stop; [lk; exact K2|]. apply rbind_ok in E as ([r s3] & E3 & E). apply collect_lim in E3. destruct r; [apply get_tcp_lim in E|lk]; congruence.
Qed.
Lemma turn_lim c s ne b s' : turn c s ne = Ok (b, s') -> limit s' = minus (limit s) (captures c s ne).
Proof.
  unfold turn, captures. intros E. apply rbind_ok in E as ([w s1] & E1 & E). rewrite E1. apply next_event_lim in E1. destruct w as [wd|]; [|cbn in E; lk; rewrite minus_false; exact E1].
  apply dispatch_lim in E. rewrite E1 in E. exact E.
Qed.
(** a limit that is used up ends the loop before anything is waited for *)
Lemma stop_at_zero c s ne : limit s = 0%Z -> captures c s ne = false /\ exists s', turn c s ne = Ok (false, s') /\ tb s' = tb s /\ lg s' = lg s /\ reqs s' = reqs s /\ qu s' = qu s /\ limit s' = 0%Z /\ (n_intr (fst ne) = 0 -> intr s = 0 -> child s' = 0).
Proof.
  intros Z. unfold captures, turn, next_event. cbv zeta. set (s1 := if n_intr (fst ne) =? 0 then s else _).
  assert (K : limit s1 = limit s /\ tb s1 = tb s /\ lg s1 = lg s /\ reqs s1 = reqs s /\ qu s1 = qu s /\ (n_intr (fst ne) = 0 -> intr s = 0 -> intr s1 = 0)) by (unfold s1; destruct (n_intr (fst ne) =? 0) eqn:Q; repeat split; auto; intros A; apply N.eqb_neq in Q; contradiction).
  clearbody s1. destruct K as (K1 & K2 & K3 & K4 & K5 & K6). rewrite K1, Z. destruct (intr s1 =? 0) eqn:Q; cbn [negb].
  - cbn. split; [reflexivity|]. eexists. split; [reflexivity|]. cbn. rewrite K1. auto 10.
  - cbn. split; [reflexivity|]. eexists. split; [reflexivity|]. rewrite K1. repeat split; auto. intros A B. rewrite (K6 A B) in Q. discriminate Q.
Qed.

(** ** Why the loop ends *)
Lemma resume_ends s i wd o g e s' : resume s i wd o g e = Ok (false, s') -> intr s' <> 0 \/ (e_err e <> 0 /\ e_err e <> ESRCH).
Proof.
  unfold resume. cbv zeta. set (s1 := if e_intr e =? 0 then s else _). clearbody s1. intros E. destruct (intr s1 =? 0) eqn:Q; cbn [negb] in E; [|inversion E; subst; left; apply N.eqb_neq; exact Q].
  destruct (fl s1 i DELAYED); [discriminate E|]. apply rbind_ok in E as ([ok s2] & E1 & E). destruct ok; [discriminate E|]. right. unfold ptrace_restart in E1. cbv zeta in E1.
  destruct (e_err e =? 0) eqn:A; cbn [orb] in E1; [inversion E1|]. destruct (e_err e =? ESRCH) eqn:B; [inversion E1|]. split; apply N.eqb_neq; assumption.
Qed.
Lemma dispatch_ends c s wd e s' : dispatch_event c s (Some wd) e = Ok (false, s') -> te wd = TE_BREAK \/ intr s' <> 0 \/ (e_err e <> 0 /\ e_err e <> ESRCH).
Proof.
  unfold dispatch_event. intros E. assert (R : forall s i o g, resume s i wd o g e = Ok (false, s') -> intr s' <> 0 \/ (e_err e <> 0 /\ e_err e <> ESRCH)) by (intros *; apply resume_ends).
  destruct (te wd); [left; reflexivity|discriminate E|..]; right; (destruct (current (lg s)) as [i|]; [|discriminate E]); cbv zeta in E;
    repeat (first [solve [eapply R; exact E]|match type of E with
    | Ok _ = _ => discriminate E
    | Undef = _ => discriminate E
    | rbind _ _ = _ => let E1 := fresh in apply rbind_ok in E as (? & E1 & E); clear E1
    | (let (_, _) := ?x in _) = _ => destruct x
    | match ?x with _ => _ end = _ => destruct x
    end]).
Qed.
Lemma event_exit_some c s i oe gn w s' : event_exit c s i oe gn = Ok (w, s') -> exists wd, w = Some wd.
Proof. unfold event_exit. intros E. apply rbind_ok in E as (s1 & _ & E). inversion E. eexists; reflexivity. Qed.
Lemma get_tcp_some c s oe gn w s' : get_tcp c s oe gn = Ok (w, s') -> exists wd, w = Some wd.
Proof. unfold get_tcp. cbv zeta. destruct (pending (qu s)); intros E; [inversion E; eexists; reflexivity|]. apply event_exit_some in E. exact E. Qed.
Lemma collect_null c ws : forall s nh pos s', collect c s nh pos ws = Ok (CNull, s') -> NP s' = 0.
Proof.
  induction ws as [|w rest IH]; intros s nh pos s' E; cbn [collect] in E; [discriminate E|]. destruct w as [errno|pid status siok msg].
  - destruct (errno =? EINTR); [discriminate E|]. destruct nh; [discriminate E|]. destruct (NP s =? 0) eqn:Q; cbn [andb] in E; [|discriminate E]. destruct (errno =? ECHILD); inversion E; subst. apply N.eqb_eq. exact Q.
  - destruct (pid =? 0); [discriminate E|]. destruct (pid =? popen s); [destruct (WIFSTOPPED status); discriminate E|]. destruct (pid2tcb _ _) as [t found]. cbv zeta in E. apply rbind_ok in E as ([f s1] & _ & E). destruct f as [i|]; [|apply IH in E; exact E].
    destruct (classify _ _ _ _ _) as [wd clr]. destruct (extra (qu _)); [discriminate E|]. apply IH in E. exact E.
Qed.
Lemma next_event_none c s n s' : next_event c s n = Ok (None, s') -> intr s' <> 0 \/ limit s = 0%Z \/ rfail s' = true \/ NP s' = 0.
Proof.
  unfold next_event. cbv zeta. set (s1 := if n_intr n =? 0 then s else _). assert (K : limit s1 = limit s) by (unfold s1; destruct (_ =? _); reflexivity). clearbody s1. intros E. rewrite <- K. clear K.
  destruct (intr s1 =? 0) eqn:Q; cbn [negb] in E; [|inversion E; subst; left; apply N.eqb_neq; exact Q]. destruct (limit s1 =? 0)%Z eqn:QL; [right; left; apply Z.eqb_eq; exact QL|]. right. right.
  destruct (pending (qu s1)); [|apply get_tcp_some in E as [? E]; discriminate E]. destruct (extra (qu s1)) as [[i idx]|]; [apply event_exit_some in E as [? E]; discriminate E|].
  destruct (negb (popen s1 =? 0) && (NP s1 =? 0)) eqn:QP; [inversion E; subst; apply andb_true_iff in QP as [_ QP]; right; apply N.eqb_eq; exact QP|]. apply rbind_ok in E as ([stop s2] & E1 & E).
  destruct stop.
  - inversion E; subst. left. destruct (armed (dl s1)); [|inversion E1]. apply rbind_ok in E1 as (s3 & _ & E1). inversion E1; subst. congruence.
  - apply rbind_ok in E as ([r s3] & E3 & E). destruct r; [apply get_tcp_some in E as [? E]; discriminate E|]. inversion E; subst. right. apply collect_null in E3. exact E3.
Qed.
