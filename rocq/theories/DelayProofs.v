(** That a delay that is asked for happens, and that it ends. *)
From Verif Require Import Base TimeModel TimeSpec TimeProofs WaitModel TcbModel TcbProofs LogModel LogProofs LoopModel LoopSpec LoopFrame LoopCore LoopQueue LoopReach LoopReq LoopDelay DelaySpec LoopClock.
Local Open Scope N_scope.

Lemma delay_expiry s i d n n' : expiry (dl (delay_tcb s i d n n')) i = ts_add n d.
Proof. unfold delay_tcb, arm_delay_timer. destruct (_ && _ && _); cbn; rewrite Nat.eqb_refl; reflexivity. Qed.
Lemma entering_delayed c s i e d sg s' diff now now' : syscall_entering_trace c s i false e = Ok (d, sg, s') -> fl s i HIDE_LOG = false -> e_traced e = true -> e_delay e = Some (diff, now, now') ->
  expiry (dl s') i = ts_add now diff /\ fl s' i DELAYED = true.
Proof.
  intros E H T D. unfold syscall_entering_trace in E. cbv zeta in E. rewrite H, T, D in E. cbn [andb negb orb] in E. rewrite H in E. cbn [orb] in E. set (s3 := if e_xdelay e then _ else _) in E.
  assert (K : expiry (dl s3) i = ts_add now diff /\ fl s3 i DELAYED = true).
  { unfold s3. destruct (e_xdelay e); cbn [dl setf with_fl fl flag_eqb]; rewrite ?andb_false_r; (split; [apply delay_expiry|apply delay_set]). }
  clearbody s3. destruct (c_stats c); [inv_ok E; exact K|]. set (s4 := if c_all (lc c) then s3 else _) in E. assert (L4 : logonly s3 s4) by (unfold s4; destruct (c_all (lc c)); [apply logonly_refl|apply logonly_with; split; reflexivity]). clearbody s4.
  apply rbind_ok in E as (s5 & E1 & E). apply rbind_ok in E as (s6 & E2 & E). inv_ok E. apply leader_only in E1. apply tpr_only in E2.
  destruct (sc_logonly _ _ (logonly_trans _ _ _ L4 (logonly_trans _ _ _ E1 E2))) as [-> ->]. exact K.
Qed.
(** the call that tracee [i] stops at is to be delayed *)
Lemma trace_delayed c s i e r sg s' diff now now' : trace_syscall c s i false e = Ok (r, sg, s') -> delayed_call s i e -> asked s i e = Some (diff, now, now') ->
  expiry (dl s') i = ts_add now diff /\ fl s' i DELAYED = true.
Proof.
  unfold trace_syscall, delayed_call, asked. destruct (fl s i INSYSCALL) eqn:IS; cbn [negb].
  - intros E (FI & XR) A. unfold syscall_exiting_decode in E. rewrite FI in E. destruct (fl s i INJECT_DELAY_EXIT) eqn:XD; [|discriminate].
    set (s1 := if fl s i CHECK_EXEC_SYSCALL then setf s i HIDE_LOG true else s) in *. assert (K3 : fl s1 i INJECT_DELAY_EXIT = true) by (unfold s1; destruct (fl s i CHECK_EXEC_SYSCALL); cbn; rewrite ?andb_false_r; auto). clearbody s1.
    apply rbind_ok in E as ([r1 s2] & E1 & E). inv_ok E. destruct (Z.eqb_spec (x_res e) 0); [contradiction|]. apply exiting_delay in E1. rewrite K3 in E1. injection A as A. rewrite A in E1. destruct E1 as [E1 E2].
    cbn [dl syscall_exiting_finish called with_dec setf with_fl fl flag_eqb]. rewrite E1, !andb_false_r. split; [apply delay_expiry|exact E2].
  - intros E (S1 & S2 & H & T) A. apply rbind_ok in E as ([r1 s1] & E1 & E). unfold syscall_entering_decode in E1. rewrite S1, S2 in E1. cbn [Z.eqb Pos.eqb] in E1. inversion E1; subst r1 s1; clear E1. cbn [Z.eqb Pos.eqb] in E.
    apply rbind_ok in E as ([[d sg1] s2] & E2 & E). inv_ok E. eapply entering_delayed in E2; [|exact H|exact T|exact A]. cbn [dl syscall_entering_finish called with_dec setf with_fl fl flag_eqb]. rewrite !andb_false_r. exact E2.
Qed.
Lemma stop_delayed c s i wd e b s' diff now now' : tinv (tb s) -> dispatch_event c s (Some wd) e = Ok (b, s') -> te wd = TE_SYSCALL_STOP -> current (lg s) = Some i -> P s i <> 0 -> delayed_call s i e -> asked s i e = Some (diff, now, now') ->
  put_aside s' i (gen (lg s) i) (ts_add now diff) /\ restarts (gen (lg s) i) (reqs s') = restarts (gen (lg s) i) (reqs s).
Proof.
  intros TI E TE CU Pi DC AK. assert (BW : busy wd = true) by (unfold busy; rewrite TE; reflexivity). assert (DX : te wd = TE_STOP_BEFORE_EXECVE -> c_detexec c = false) by (rewrite TE; discriminate).
  pose proof (dispatch_reqs _ _ _ _ _ _ _ TI E BW CU Pi DX) as RQ. destruct (dispatch_delay _ _ _ _ _ _ _ TI E BW CU Pi DX) as (_ & GK & _ & _ & PP & _). specialize (PP ltac:(rewrite TE; discriminate) i).
  unfold dies in RQ, PP. rewrite TE in RQ, PP. cbn [andb] in PP. destruct RQ as (j & sig & -> & _ & RQ).
  assert (D : expiry (dl s') i = ts_add now diff /\ fl s' i DELAYED = true).
  { clear RQ. unfold dispatch_event in E. rewrite TE, CU in E. apply rbind_ok in E as ([[r sg] s1] & E1 & E). destruct (trace_delayed _ _ _ _ _ _ _ _ _ _ E1 DC AK) as [A B]. destruct (r <? 0)%Z; [inv_ok E; auto|].
    apply resume_goes in E as (_ & F & _ & _ & _ & (X & _) & _); [rewrite F, X; auto|]. repeat destruct (fl _ _ _); auto using seccomp_restart. }
  destruct D as [D1 D2]. split; [constructor; [congruence|rewrite (proj1 GK); reflexivity|exact D2|exact D1]|]. destruct RQ as [[(o & _ & _ & _ & F)|[R _]]|(_ & _ & R)]; [congruence|rewrite R; reflexivity..].
Qed.

(** ** The end of a delay *)
Lemma resumed_one c s i e s' : restart_delayed_tcb c s i e = Ok (true, s') -> exists o, reqs s' = reqs s ++ [go s i o 0] /\ is_restart o = true.
Proof.
  intros E. destruct (restart_delayed_one _ _ _ _ _ _ E) as (_ & _ & _ & _ & _ & _ & _ & _ & _ & _ & l & R & [(o & -> & O)|[-> I]]); [eauto|]. exfalso.
  unfold restart_delayed_tcb in E. cbv zeta in E. apply rbind_ok in E as ([ok1 s2] & E1 & E). inversion E; subst ok1; clear E. rewrite <- H1 in I. cbn [intr with_dl with_lg] in I. cbn [dispatch_event te] in E1. cbn [current lg with_lg set_current] in E1. unfold resume in E1. cbv zeta in E1.
  set (s0 := if e_intr e =? 0 then _ else _) in E1. destruct (negb (intr s0 =? 0)) eqn:Z; [discriminate|]. apply negb_false_iff, N.eqb_eq in Z. destruct (fl s0 i DELAYED); [inversion E1; subst s2; cbn in I; congruence|].
  apply rbind_ok in E1 as ([ok s3] & E1 & E2). destruct ok; [|discriminate]. inversion E2; subst s2. unfold ptrace_restart in E1. cbv zeta in E1. destruct ((e_err e =? 0) || (e_err e =? ESRCH)); [inversion E1; subst s3; cbn in I; congruence|]. apply rbind_ok in E1 as (s4 & _ & E1). discriminate.
Qed.
Lemma resumed_from c now es is i : forall s next s', NoDup is -> restart_delayed_from c s now is next es = Ok (true, s') -> In i is -> expired s now i = true ->
  exists l1 l2 o, reqs s' = reqs s ++ l1 ++ go s i o 0 :: l2 /\ is_restart o = true.
Proof.
  induction is as [|j is IH]; intros s next s' ND E IN X; [destruct IN|]. cbn [restart_delayed_from] in E. inversion ND as [|x y NI ND']; subst x y.
  destruct (negb (P s j =? 0) && fl s j DELAYED) eqn:W; [destruct (0 <? ts_cmp now (expiry (dl s) j))%Z eqn:Y|].
  - apply rbind_ok in E as ([ok1 s1] & E1 & E). destruct ok1; [|discriminate]. destruct (resumed_one _ _ _ _ _ E1) as (o & R1 & O). destruct (restart_delayed_pass _ _ _ _ _ _ _ _ ND' E) as (_ & _ & _ & _ & _ & _ & _ & _ & _ & _ & _ & _ & _ & l & R & _).
    destruct IN as [->|IN]; [exists [], l, o; rewrite R, R1, <- app_assoc; auto|].
    destruct (restart_delayed_one _ _ _ _ _ _ E1) as (A1 & A2 & _ & (A4 & _) & _ & _ & _ & A8 & _). assert (NJ : Nat.eqb i j = false) by (apply Nat.eqb_neq; intros ->; contradiction).
    destruct (IH _ _ _ ND' E IN) as (l1 & l2 & o' & R2 & O'); [unfold expired, P in *; rewrite A1, A4, A8, NJ; exact X|]. exists (go s j o 0 :: l1), l2, o'. rewrite R2, R1, <- app_assoc. assert (G : go s1 i o' 0 = go s i o' 0) by (unfold go, P; rewrite A1; destruct A2 as [-> _]; reflexivity). rewrite G. auto.
  - destruct IN as [->|IN]; [unfold expired in X; rewrite Y, andb_false_r in X; discriminate|]. eapply IH; eauto.
  - destruct IN as [->|IN]; [unfold expired in X; rewrite W in X; discriminate|]. eapply IH; eauto.
Qed.
Lemma timer_resumes c s now es s' i : timer_sighandler c s now es = Ok s' -> rfail s' = false -> P s i <> 0 -> fl s i DELAYED = true -> (0 < ts_cmp now (expiry (dl s) i))%Z ->
  fl s' i DELAYED = false /\ exists l1 l2 o, reqs s' = reqs s ++ l1 ++ go s i o 0 :: l2 /\ is_restart o = true.
Proof.
  intros E RF Pi D X. assert (EX : expired s now i = true) by (unfold expired; apply N.eqb_neq in Pi; rewrite Pi, D; cbn; lia). split.
  - destruct (timer_rung _ _ _ _ _ E) as (_ & _ & _ & _ & _ & _ & _ & _ & _ & _ & _ & _ & RO & _). specialize (RO RF i). rewrite EX in RO. apply RO. unfold waiting. apply N.eqb_neq in Pi. rewrite Pi, D. reflexivity.
  - unfold timer_sighandler in E. cbv zeta in E. destruct (rfail _) eqn:R0 in E; [inversion E; subst s'; cbn in RF; cbn in R0; congruence|]. apply rbind_ok in E as ([ok s1] & E1 & E). destruct ok; inversion E; subst s'; [|discriminate]. eapply resumed_from in E1; [|apply seq_NoDup|apply P_live; exact Pi|exact EX]. exact E1.
Qed.
