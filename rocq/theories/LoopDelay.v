(** Delays. *)
From Verif Require Import Base TimeModel WaitModel TcbModel TcbProofs LogModel LogProofs LoopModel LoopSpec LoopFrame LoopCore LoopQueue LoopReach LoopReq.
Local Open Scope N_scope.

(** ** Delays *)
Lemma sc_refl s : same_clock s s. Proof. repeat split. Qed.
Lemma sc_trans a b c : same_clock a b -> same_clock b c -> same_clock a c. Proof. unfold same_clock. intuition congruence. Qed.
Lemma sc_dl s s' : dl s' = dl s -> same_clock s s'. Proof. intros E. unfold same_clock. rewrite E. auto. Qed.
Lemma sc_logonly s s' : logonly s s' -> dl s' = dl s /\ fl s' = fl s. Proof. intros [_ ->]. split; reflexivity. Qed.
Lemma delay_dl s s1 i d n n' : dl s1 = dl s -> dl (delay_tcb s1 i d n n') = dl (delay_tcb s i d n n').
Proof. intros E. unfold delay_tcb, arm_delay_timer. cbn [dl with_dl setf with_fl created time_left timer_at]. rewrite E. destruct (_ && _ && _); cbn; rewrite ?E; reflexivity. Qed.
Lemma delay_set s i d n n' : fl (delay_tcb s i d n n') i DELAYED = true.
Proof. unfold delay_tcb, arm_delay_timer. destruct (_ && _ && _); cbn; rewrite Nat.eqb_refl; reflexivity. Qed.
Lemma entering_delay c s i rec e d sg s' : syscall_entering_trace c s i rec e = Ok (d, sg, s') ->
  (dl s' = dl s /\ fl s' i DELAYED = fl s i DELAYED) \/ (rec = false /\ exists diff now now', e_delay e = Some (diff, now, now') /\ dl s' = dl (delay_tcb s i diff now now') /\ fl s' i DELAYED = true).
Proof.
  unfold syscall_entering_trace. cbv zeta. set (s1 := if fl s i HIDE_LOG && e_exec e then _ else s).
  assert (K : dl s1 = dl s /\ fl s1 i DELAYED = fl s i DELAYED) by (unfold s1; destruct (_ && _); cbn; rewrite ?andb_false_r; auto). clearbody s1.
  destruct (_ || _); [intros E; inv_ok E; left; cbn; rewrite andb_false_r; exact K|].
  set (s2 := setf s1 i FILTERED false). assert (K2 : dl s2 = dl s /\ fl s2 i DELAYED = fl s i DELAYED) by (cbn; rewrite andb_false_r; exact K). clearbody s2.
  set (s3 := if negb (fl s i HIDE_LOG) && negb rec then _ else s2).
  assert (K3 : (dl s3 = dl s /\ fl s3 i DELAYED = fl s i DELAYED) \/ (rec = false /\ exists diff now now', e_delay e = Some (diff, now, now') /\ dl s3 = dl (delay_tcb s i diff now now') /\ fl s3 i DELAYED = true)).
  { unfold s3. destruct (fl s i HIDE_LOG); [left; exact K2|]. destruct rec; [left; exact K2|]. cbn [negb andb].
    destruct (e_delay e) as [[[diff now] now']|]; [right; split; [reflexivity|]; exists diff, now, now'; split; [reflexivity|]|left; destruct (e_xdelay e); cbn; rewrite ?andb_false_r; exact K2].
    pose proof (delay_dl s s2 i diff now now' (proj1 K2)) as D. destruct (e_xdelay e); cbn [dl setf with_fl fl]; (split; [exact D|]); [|apply delay_set]. cbn [flag_eqb]. rewrite andb_false_r. apply delay_set. }
  clearbody s3. destruct (c_stats c); [intros E; inv_ok E; exact K3|]. set (s4 := if c_all (lc c) then s3 else _). assert (L4 : logonly s3 s4) by (unfold s4; destruct (c_all (lc c)); [apply logonly_refl|apply logonly_with; split; reflexivity]). clearbody s4.
  intros E. apply rbind_ok in E as (s5 & E1 & E). apply rbind_ok in E as (s6 & E2 & E). inv_ok E. apply leader_only in E1. apply tpr_only in E2.
  destruct (sc_logonly _ _ (logonly_trans _ _ _ L4 (logonly_trans _ _ _ E1 E2))) as [-> ->]. exact K3.
Qed.
Definition put_off (s : st) (i : nat) (a : option (ts * ts * ts)) (s' : st) : Prop :=
  match a with
  | Some (diff, now, now') => dl s' = dl (delay_tcb s i diff now now') /\ fl s' i DELAYED = true
  | None => dl s' = dl s /\ fl s' i DELAYED = fl s i DELAYED
  end.
Lemma put_off_same s i a s1 s2 : dl s2 = dl s1 -> fl s2 i DELAYED = fl s1 i DELAYED -> put_off s i a s1 -> put_off s i a s2.
Proof. unfold put_off. destruct a as [[[d n] n']|]; intros -> ->; auto. Qed.
Lemma exiting_delay c s i rc e r s' : syscall_exiting_trace c s i rc e = Ok (r, s') -> put_off s i (if fl s i INJECT_DELAY_EXIT then Some (x_delay e) else None) s'.
Proof.
  unfold syscall_exiting_trace. cbv zeta. set (s1 := if fl s i INJECT_DELAY_EXIT then _ else s). set (a := if fl s i INJECT_DELAY_EXIT then _ else _).
  assert (K : put_off s i a s1) by (unfold a, s1; destruct (fl s i INJECT_DELAY_EXIT); [destruct (x_delay e) as [[d n] n']; split; [reflexivity|apply delay_set]|split; reflexivity]). clearbody s1 a.
  assert (LOG : forall x y, logonly x y -> put_off s i a x -> put_off s i a y) by (intros x y L; apply sc_logonly in L as [L1 L2]; apply put_off_same; rewrite ?L1, ?L2; reflexivity).
  intros E. apply rbind_ok in E as (s2 & E1 & E). assert (K2 : put_off s i a s2).
  { destruct (c_stats c); [inv_ok E1; exact K|]. apply rbind_ok in E1 as ([b l] & E1 & E2). inv_ok E2. destruct b; eapply put_off_same; try exact K; try reflexivity. cbn. rewrite andb_false_r. reflexivity. }
  destruct (negb (rc =? 1)%Z).
  - destruct (c_stats c); [inv_ok E; exact K2|]. apply rbind_ok in E as (s3 & E2 & E). apply rbind_ok in E as (s4 & E3 & E). inv_ok E. apply tpr_only in E2.
    assert (L2 : logonly s3 s4) by (destruct (c_all (lc c)); [inv_ok E3; apply logonly_refl|eapply pr_only; [|exact E3]; intros l l'; apply close_gk]).
    eapply LOG; [eapply logonly_trans; [exact E2|]; eapply logonly_trans; [exact L2|apply end_line_only]|exact K2].
  - apply rbind_ok in E as (s3 & E2 & E). apply rbind_ok in E as (s4 & E3 & E).
    assert (L1 : logonly s2 s3) by (destruct (_ || _); [inv_ok E2; apply logonly_refl|eapply tpr_only; exact E2]).
    assert (L2 : logonly s3 s4) by (destruct (c_all (lc c) || c_stats c); [inv_ok E3; apply logonly_refl|eapply pr_only; [|exact E3]; intros l l'; apply close_gk]).
    pose proof (LOG _ _ L2 (LOG _ _ L1 K2)) as K4. destruct (negb _).
    + inv_ok E. destruct (c_stats c); [exact K4|eapply LOG; [apply end_line_only|exact K4]].
    + set (s5 := if (limit s4 =? -1)%Z then s4 else set_limit s4 (limit s4 - 1)) in *. assert (K5 : put_off s i a s5) by (unfold s5; destruct (_ =? -1)%Z; exact K4). clearbody s5.
      destruct (c_stats c); [inv_ok E; exact K5|]. apply rbind_ok in E as (s6 & E4 & E). inv_ok E. apply tpr_only in E4. eapply LOG; [eapply logonly_trans; [exact E4|apply end_line_only]|exact K5].
Qed.
(** a system call: the delay that was asked for, if any *)
Lemma trace_delay c s i rec e r sg s' : trace_syscall c s i rec e = Ok (r, sg, s') -> put_off s i None s' \/ ((rec = false \/ fl s i INSYSCALL = true) /\ asked s i e <> None /\ put_off s i (asked s i e) s').
Proof.
  unfold trace_syscall, asked. destruct (fl s i INSYSCALL) eqn:IS; cbn [negb].
  - unfold syscall_exiting_decode. intros E. assert (FIN : forall s1 a, put_off s i a s1 -> put_off s i a (syscall_exiting_finish s1 i)) by (intros s1 a; apply put_off_same; [reflexivity|cbn; rewrite !andb_false_r; reflexivity]).
    destruct (fl s i FILTERED) eqn:FI; [cbn [Z.eqb rbind] in E; inv_ok E; left; apply FIN; split; reflexivity|].
    set (s1 := if fl s i CHECK_EXEC_SYSCALL then setf s i HIDE_LOG true else s) in *. assert (K : dl s1 = dl s /\ fl s1 i DELAYED = fl s i DELAYED /\ fl s1 i INJECT_DELAY_EXIT = fl s i INJECT_DELAY_EXIT) by (unfold s1; destruct (fl s i CHECK_EXEC_SYSCALL); cbn; rewrite ?andb_false_r; auto).
    clearbody s1. destruct K as (K1 & K2 & K3). apply rbind_ok in E as ([r1 s2] & E1 & E). inv_ok E. destruct (x_res e =? 0)%Z; [inv_ok E1; left; apply FIN; split; assumption|].
    apply exiting_delay in E1. rewrite K3 in E1. destruct (fl s i INJECT_DELAY_EXIT).
    + right. split; [auto|]. split; [discriminate|]. apply FIN. unfold put_off in *. destruct (x_delay e) as [[d n] n']. rewrite (delay_dl s s1) in E1 by exact K1. exact E1.
    + left. apply FIN. unfold put_off in *. rewrite K1, K2 in E1. exact E1.
  - intros E. apply rbind_ok in E as ([r1 s1] & E1 & E). apply entering_decode_keep in E1 as (_ & F1 & D1 & _).
    assert (FIN : forall s1 d a, put_off s i a s1 -> put_off s i a (syscall_entering_finish s1 i d)) by (intros s2 d a; apply put_off_same; [reflexivity|cbn; rewrite !andb_false_r; reflexivity]).
    assert (K : put_off s i None s1) by (split; [exact D1|rewrite F1; reflexivity]).
    destruct (r1 =? 0)%Z; [inv_ok E; left; exact K|]. destruct (r1 =? 1)%Z; [|inv_ok E; left; apply FIN; exact K].
    apply rbind_ok in E as ([[d sg1] s2] & E2 & E). inv_ok E. apply entering_delay in E2 as [[A B]|(R & diff & now & now' & A & B & C)].
    + left. apply FIN. split; [congruence|rewrite B, F1; reflexivity].
    + right. split; [auto|]. rewrite A. split; [discriminate|]. apply FIN. split; [rewrite B; apply delay_dl; exact D1|exact C].
Qed.
(** what handling an event does to the delays *)
Definition delays_same (s s' : st) : Prop := same_clock s s' /\ forall k, P s' k <> 0 -> fl s' k DELAYED = fl s k DELAYED.
Definition delays_new (s : st) (i : nat) (e : denv) (s' : st) : Prop :=
  exists diff now now', asked s i e = Some (diff, now, now') /\ same_clock (delay_tcb s i diff now now') s' /\ forall k, P s' k <> 0 -> fl s' k DELAYED = Nat.eqb k i || fl s k DELAYED.
Lemma aside_same s s' : aside s s' -> delays_same s s'. Proof. intros A. split; [apply (as_clock _ _ A)|apply (as_del _ _ A)]. Qed.
Lemma dispatch_delay c s i wd e b s' : tinv (tb s) -> dispatch_event c s (Some wd) e = Ok (b, s') -> busy wd = true -> current (lg s) = Some i -> P s i <> 0 -> (te wd = TE_STOP_BEFORE_EXECVE -> c_detexec c = false) ->
  (forall k, P s' k <> 0 -> P s k <> 0) /\ gk (lg s) (lg s') /\ (intr s' = 0 -> intr s = 0) /\ rfail s' = rfail s /\ (te wd <> TE_STOP_BEFORE_EXECVE -> forall k, P s' k = if dies wd && Nat.eqb k i then 0 else P s k) /\
  (delays_same s s' \/ (reads wd = true /\ te wd <> TE_STOP_BEFORE_EXECVE /\ delays_new s i e s')).
Proof.
  intros TI E B CU Pi DX. unfold dispatch_event in E. rewrite CU in E.
  assert (R : forall s1 j o sig, aside s s1 -> (te wd <> TE_STOP_BEFORE_EXECVE -> dies wd = false /\ forall k, P s1 k = P s k) -> is_restart o = true -> resume s1 j wd o sig e = Ok (b, s') ->
     (forall k, P s' k <> 0 -> P s k <> 0) /\ gk (lg s) (lg s') /\ (intr s' = 0 -> intr s = 0) /\ rfail s' = rfail s /\ (te wd <> TE_STOP_BEFORE_EXECVE -> forall k, P s' k = if dies wd && Nat.eqb k i then 0 else P s k) /\ (delays_same s s' \/ (reads wd = true /\ te wd <> TE_STOP_BEFORE_EXECVE /\ delays_new s i e s'))).
  { intros s1 j o sig A PP OP E1. apply resume_goes in E1 as (_ & F & T & G & _ & CL & _ & RF & IN); [|exact OP].
    assert (PE : forall k, P s' k = P s1 k) by (intros k; unfold P; rewrite T; reflexivity).
    split; [intros k; rewrite PE; apply (as_P _ _ A)|]. split; [eapply gk_trans; [apply (as_gk _ _ A)|exact G]|]. split; [intros H; rewrite <- (as_intr _ _ A); auto|]. split; [rewrite RF; apply (as_rfail _ _ A)|]. split; [intros N k; rewrite (proj1 (PP N)); cbn [andb]; rewrite PE; apply PP; exact N|].
    left. split; [eapply sc_trans; [apply (as_clock _ _ A)|exact CL]|]. intros k. rewrite F, PE. apply (as_del _ _ A). }
  assert (TBP : forall s1, tb s1 = tb s -> dies wd = false -> te wd <> TE_STOP_BEFORE_EXECVE -> dies wd = false /\ forall k, P s1 k = P s k) by (intros s1 T DI _; split; [exact DI|intros k; unfold P; rewrite T; reflexivity]).
  assert (OPR : forall s0 j, is_restart (if fl s0 j SECCOMP_FILTER then seccomp_op s0 j e else OP_SYSCALL) = true) by (intros s0 j; destruct (fl s0 j SECCOMP_FILTER); [apply seccomp_restart|reflexivity]).
  assert (SYS : te wd <> TE_STOP_BEFORE_EXECVE -> reads wd = true -> rbind (trace_syscall c s i false e) (fun x => let '(r, sig, s0) := x in if (r <? 0)%Z then Ok (true, s0) else resume s0 i wd (if fl s0 i SECCOMP_FILTER then if fl s0 i INSYSCALL then OP_SYSCALL else OP_CONT else (if fl s i SECCOMP_FILTER then seccomp_op s i e else OP_SYSCALL)) sig e) = Ok (b, s') ->
     (forall k, P s' k <> 0 -> P s k <> 0) /\ gk (lg s) (lg s') /\ (intr s' = 0 -> intr s = 0) /\ rfail s' = rfail s /\ (te wd <> TE_STOP_BEFORE_EXECVE -> forall k, P s' k = if dies wd && Nat.eqb k i then 0 else P s k) /\ (delays_same s s' \/ (reads wd = true /\ te wd <> TE_STOP_BEFORE_EXECVE /\ delays_new s i e s'))).
  { clear E. intros NX RD E. apply rbind_ok in E as ([[r sg] s1] & E1 & E). pose proof (trace_delay _ _ _ _ _ _ _ _ E1) as PO. apply trace_syscall_frame in E1 as T.
    assert (Q : tb s' = tb s1 /\ fl s' = fl s1 /\ same_clock s1 s' /\ gk (lg s1) (lg s') /\ (intr s' = 0 -> intr s1 = 0) /\ rfail s' = rfail s1).
    { destruct (r <? 0)%Z; [inversion E; subst; repeat split; auto|]. apply resume_goes in E as (_ & A2 & A3 & A4 & _ & A5 & _ & A6 & A7); [|repeat destruct (fl _ _ _); auto using seccomp_restart]. auto 10. }
    destruct Q as (Q1 & Q2 & Q3 & Q4 & Q5 & Q6). assert (PE : forall k, P s' k = P s k) by (intros k; unfold P; rewrite Q1, (tr_tb _ _ _ _ _ _ T); reflexivity).
    split; [intros k; rewrite PE; auto|]. split; [eapply gk_trans; [apply (tr_gk _ _ _ _ _ _ T)|exact Q4]|]. split; [intros H; rewrite <- (tr_intr _ _ _ _ _ _ T); auto|]. split; [rewrite Q6; apply (tr_rfail _ _ _ _ _ _ T)|]. split; [intros _ k; replace (dies wd) with false by (unfold reads, dies in *; destruct (te wd); try reflexivity; discriminate RD); apply PE|].
    assert (FK : forall k, k <> i -> fl s' k DELAYED = fl s k DELAYED) by (intros k N; rewrite Q2; apply (tr_fl _ _ _ _ _ _ T), N).
    destruct PO as [[A1 A2]|(_ & A1 & A2)].
    - left. split; [eapply sc_trans; [apply sc_dl; exact A1|exact Q3]|]. intros k _. destruct (Nat.eq_dec k i) as [->|N]; [rewrite Q2; exact A2|apply FK; exact N].
    - right. split; [exact RD|]. split; [exact NX|]. unfold delays_new. destruct (asked s i e) as [[[diff now] now']|]; [|congruence]. destruct A2 as [A2 A3]. exists diff, now, now'. split; [reflexivity|]. split; [eapply sc_trans; [apply sc_dl; exact A2|exact Q3]|].
      intros k _. destruct (Nat.eqb_spec k i) as [->|N]; [rewrite Q2; exact A3|apply FK; exact N]. }
  assert (DROP : forall s1 s2, reqs s1 = reqs s -> dl s1 = dl s -> fl s1 = fl s -> tb s1 = tb s -> gk (lg s) (lg s1) -> intr s1 = intr s -> rfail s1 = rfail s -> dies wd = true -> droptcb c s1 i = Ok s2 -> s' = s2 ->
     (forall k, P s' k <> 0 -> P s k <> 0) /\ gk (lg s) (lg s') /\ (intr s' = 0 -> intr s = 0) /\ rfail s' = rfail s /\ (te wd <> TE_STOP_BEFORE_EXECVE -> forall k, P s' k = if dies wd && Nat.eqb k i then 0 else P s k) /\ (delays_same s s' \/ (reads wd = true /\ te wd <> TE_STOP_BEFORE_EXECVE /\ delays_new s i e s'))).
  { intros s1 s2 H1 H2 H3 H4 H5 H6 H7 DI D ->. pose proof (aside_drop _ _ _ _ D) as A. destruct (drop_P _ _ _ _ D) as [DP _]. assert (PE : forall k, P s1 k = P s k) by (intros k; unfold P; rewrite H4; reflexivity).
    split; [intros k H; rewrite <- PE; apply (as_P _ _ A k H)|]. split; [eapply gk_trans; [exact H5|apply (as_gk _ _ A)]|]. split; [rewrite (as_intr _ _ A), H6; auto|]. split; [rewrite (as_rfail _ _ A); exact H7|].
    split; [intros _ k; rewrite DP, DI; cbn [andb]; destruct (Nat.eqb k i); [reflexivity|apply PE]|].
    left. split; [eapply sc_trans; [apply sc_dl; exact H2|apply (as_clock _ _ A)]|]. intros k H. rewrite (as_del _ _ A k H), H3. reflexivity. }
  destruct (te wd) eqn:TE; try discriminate; try (unfold busy in B; rewrite TE in B; discriminate); try (assert (DI : dies wd = false) by (unfold dies; rewrite TE; reflexivity)).
  - eapply R; [apply aside_refl|apply TBP; [reflexivity|exact DI]|apply OPR|exact E].
  - apply SYS; auto; [discriminate|unfold reads; rewrite TE; reflexivity].
  - apply rbind_ok in E as (s1 & E1 & E). pose proof (aside_stopped _ _ _ _ _ _ E1) as A. apply stopped_mild in E1 as (T & _). eapply R; [exact A|exact (TBP _ T DI)|apply OPR|exact E].
  - apply rbind_ok in E as (s1 & E1 & E). apply rbind_ok in E as (s2 & E2 & E). inversion E; subst b. 
    assert (S1 : reqs s1 = reqs s /\ dl s1 = dl s /\ fl s1 = fl s /\ tb s1 = tb s /\ gk (lg s) (lg s1) /\ intr s1 = intr s /\ rfail s1 = rfail s).
    { unfold print_signalled in E1. cbv zeta in E1. set (s0 := if P s i =? child s then _ else s) in *. assert (X : reqs s0 = reqs s /\ dl s0 = dl s /\ fl s0 = fl s /\ tb s0 = tb s /\ lg s0 = lg s /\ intr s0 = intr s /\ rfail s0 = rfail s) by (unfold s0; destruct (_ =? child s); repeat split). destruct X as (X1 & X2 & X3 & X4 & X5 & X6 & X7). rewrite <- X1, <- X2, <- X3, <- X4, <- X5, <- X6, <- X7. clearbody s0. clear -E1. destruct (_ && _); [|inv_ok E1; repeat split]. apply message_only in E1 as [G ->]. repeat split; apply G. }
    destruct S1 as (S1 & S2 & S3 & S4 & S5 & S6 & S7). eapply DROP; try eassumption; [unfold dies; rewrite TE; reflexivity|congruence].
  - apply rbind_ok in E as (s1 & E1 & E). pose proof (aside_stopped _ _ _ _ _ _ E1) as A. apply stopped_mild in E1 as (T & _). destruct (c_seize c); (eapply R; [exact A|exact (TBP _ T DI)| |exact E]; [reflexivity || apply OPR]).
  - apply rbind_ok in E as (s1 & E1 & E). apply rbind_ok in E as (s2 & E2 & E). inversion E; subst b. 
    assert (S1 : reqs s1 = reqs s /\ dl s1 = dl s /\ fl s1 = fl s /\ tb s1 = tb s /\ gk (lg s) (lg s1) /\ intr s1 = intr s /\ rfail s1 = rfail s).
    { unfold print_exited in E1. cbv zeta in E1. set (s0 := if P s i =? child s then _ else s) in *. assert (X : reqs s0 = reqs s /\ dl s0 = dl s /\ fl s0 = fl s /\ tb s0 = tb s /\ lg s0 = lg s /\ intr s0 = intr s /\ rfail s0 = rfail s) by (unfold s0; destruct (_ =? child s); repeat split). destruct X as (X1 & X2 & X3 & X4 & X5 & X6 & X7). rewrite <- X1, <- X2, <- X3, <- X4, <- X5, <- X6, <- X7. clearbody s0. clear -E1. destruct (_ && _); [|inv_ok E1; repeat split]. apply message_only in E1 as [G ->]. repeat split; apply G. }
    destruct S1 as (S1 & S2 & S3 & S4 & S5 & S6 & S7). eapply DROP; try eassumption; [unfold dies; rewrite TE; reflexivity|congruence].
  - set (s1 := setf s i CHECK_EXEC_SYSCALL false) in *. assert (A1 : aside s s1) by (apply aside_setf; discriminate). apply rbind_ok in E as ([sw s2] & E1 & E).
    destruct (aside_switch c s1 i sw s2 TI E1 CU Pi) as (A2 & j & C2 & P2 & _). rewrite C2 in E. pose proof (aside_trans _ _ _ A1 A2) as A3. apply rbind_ok in E as ([[bad sg] s3] & E2 & E). rewrite DX in E by reflexivity.
    assert (T : aside s2 s3).
    { destruct (match sw with None => _ | Some _ => _ end) eqn:SW; [|inv_ok E2; apply aside_refl]. apply rbind_ok in E2 as ([[r sg1] s4] & E2 & E3). inv_ok E3. pose proof (trace_delay _ _ _ _ _ _ _ _ E2) as PO. assert (IS : fl s2 j INSYSCALL = false) by (destruct sw; [discriminate|apply negb_true_iff in SW; exact SW]). apply trace_syscall_frame in E2 as T.
      destruct PO as [[B1 B2]|([X|X] & _)]; [|discriminate|congruence]. constructor; try apply T.
      - apply sc_dl. exact B1.
      - intros k. unfold P. rewrite (tr_tb _ _ _ _ _ _ T). auto.
      - intros k _. destruct (Nat.eq_dec k j) as [->|N]; [exact B2|apply (tr_fl _ _ _ _ _ _ T), N]. }
    pose proof (aside_trans _ _ _ A3 T) as A4. destruct bad.
    + inv_ok E. split; [apply (as_P _ _ A4)|]. split; [apply (as_gk _ _ A4)|]. split; [rewrite (as_intr _ _ A4); auto|]. split; [apply (as_rfail _ _ A4)|]. split; [congruence|]. left. apply aside_same. exact A4.
    + eapply R; [exact A4|congruence|apply OPR|exact E].
  - apply rbind_ok in E as (s1 & E1 & E). pose proof (aside_exit_event _ _ _ _ E1) as A. apply exit_event_mild in E1 as (T & _). eapply R; [exact A|exact (TBP _ T DI)|apply OPR|exact E].
  - destruct (negb (fl s i SECCOMP_FILTER)); [refine (R (setf s i SECCOMP_FILTER true) i OP_SYSCALL 0 _ (TBP _ eq_refl DI) eq_refl E); apply aside_setf; discriminate|].
    destruct (c_secbefore c); [refine (R s i OP_SYSCALL 0 (aside_refl s) (TBP _ eq_refl DI) eq_refl E)|]. apply SYS; [discriminate|unfold reads; rewrite TE; reflexivity|exact E].
Qed.
