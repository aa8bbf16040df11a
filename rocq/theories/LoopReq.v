(** What strace asks of its tracees. *)
From Verif Require Import Base TimeModel WaitModel TcbModel TcbProofs LogModel LogProofs LoopModel LoopSpec LoopFrame LoopCore LoopQueue LoopReach.
Local Open Scope N_scope.

(** no requests, nothing about delays, nothing about the exit code *)
Record aside (s s' : st) : Prop := {
  as_reqs : reqs s' = reqs s; as_intr : intr s' = intr s; as_rfail : rfail s' = rfail s; as_exit : exitc s' = exitc s; as_child : child s' = child s;
  as_gk : gk (lg s) (lg s');
  as_clock : expiry (dl s') = expiry (dl s) /\ created (dl s') = created (dl s) /\ armed (dl s') = armed (dl s) /\ timer_at (dl s') = timer_at (dl s);
  as_P : forall k, P s' k <> 0 -> P s k <> 0;
  as_del : forall k, P s' k <> 0 -> fl s' k DELAYED = fl s k DELAYED }.
Lemma aside_refl s : aside s s. Proof. constructor; auto. apply gk_refl. Qed.
Lemma aside_trans a b c : aside a b -> aside b c -> aside a c.
Proof.
  intros [] []. constructor; try congruence; auto.
  - eapply gk_trans; eassumption.
  - intuition congruence.
  - intros k H. rewrite as_del1, as_del0; auto.
Qed.
Lemma aside_log s s' : logonly s s' -> aside s s'. Proof. intros [G E]. rewrite E. constructor; auto. Qed.
Lemma aside_setf s i f b : f <> DELAYED -> aside s (setf s i f b).
Proof. intros N. constructor; auto; [apply gk_refl|]. intros k _. cbn. destruct f; try contradiction; rewrite andb_false_r; reflexivity. Qed.
Lemma aside_stopped c s i sig e s' : print_stopped c s i sig e = Ok s' -> aside s s'.
Proof. unfold print_stopped. destruct (_ && _ && _); [intros E; apply aside_log; eapply message_only; exact E|intros E; inv_ok E; apply aside_refl]. Qed.
Lemma aside_exit_event c s i s' : exit_event c s i = Ok s' -> aside s s'.
Proof.
  unfold exit_event. destruct (_ || _); [intros E; inv_ok E; apply aside_refl|]. intros E. apply rbind_ok in E as ([r l] & E1 & E). apply event_exit_gk in E1. inv_ok E.
  assert (M : aside s (with_lg s l)) by (apply aside_log, logonly_with; exact E1). destruct r; [|exact M]. eapply aside_trans; [exact M|apply aside_setf; discriminate].
Qed.
Lemma pidof_set l i p k : (nth k (set_pid l i p) 0 = if Nat.eqb k i then (if Nat.ltb i (length l) then p else nth k (set_pid l i p) 0) else nth k l 0) \/ (length l <= i)%nat.
Proof.
  destruct (Nat.lt_ge_cases i (length l)) as [L|L]; [left|right; exact L]. rewrite nth_set by exact L. destruct (Nat.eqb_spec k i); [|reflexivity]. apply Nat.ltb_lt in L. rewrite L. reflexivity.
Qed.
Lemma drop_P c s i s' : droptcb c s i = Ok s' -> (forall k, P s' k = if Nat.eqb k i then 0 else P s k) /\ (forall k g, k <> i -> fl s' k g = fl s k g).
Proof.
  unfold droptcb. destruct (N.eqb_spec (P s i) 0) as [Z|Z]; intros E.
  - inv_ok E. split; [|auto]. intros k. destruct (Nat.eqb_spec k i) as [X|X]; [rewrite X; exact Z|reflexivity].
  - apply rbind_ok in E as (s1 & E1 & E). inv_ok E. assert (L : logonly s s1) by (eapply pr_only; [|exact E1]; intros l l'; apply drop_gk). destruct L as [_ ->]. split.
    + intros k. unfold P, pidof. cbn. unfold drop_slot. unfold P in Z. apply N.eqb_neq in Z as Z'. rewrite Z'. cbn. rewrite nth_set by (apply pidof_lt; exact Z). reflexivity.
    + intros k g N. cbn. apply Nat.eqb_neq in N. rewrite N. reflexivity.
Qed.
Lemma aside_drop c s i s' : droptcb c s i = Ok s' -> aside s s'.
Proof.
  intros E. destruct (drop_P _ _ _ _ E) as [A B]. unfold droptcb in E. destruct (P s i =? 0); [inv_ok E; apply aside_refl|]. apply rbind_ok in E as (s1 & E1 & E). inv_ok E.
  assert (L : logonly s s1) by (eapply pr_only; [|exact E1]; intros l l'; apply drop_gk). destruct L as [G EQ]. rewrite EQ in *. clear EQ.
  constructor; auto; intros k H; rewrite A in H; destruct (Nat.eqb_spec k i) as [X|X]; try congruence. apply B. exact X.
Qed.
(** the tracee that takes over [i] *)
Lemma nth_rename t j p k : pidof t j <> 0 -> pidof (rename t j p) k = if Nat.eqb k j then p else pidof t k.
Proof. intros H. unfold pidof. cbn. rewrite nth_set by (apply pidof_lt; exact H). reflexivity. Qed.
Lemma aside_switch c s i r s' : tinv (tb s) -> maybe_switch_current_tcp c s i = Ok (r, s') -> current (lg s) = Some i -> P s i <> 0 ->
  aside s s' /\ exists j, current (lg s') = Some j /\ P s' j = P s i /\ (r = None -> j = i) /\ (r <> None -> r = Some j /\ j <> i) /\ (r = None -> lg s' = lg s /\ fl s' = fl s).
Proof.
  intros TI E CU Pi. unfold maybe_switch_current_tcp, maybe_switch_tcbs in E. set (old := wmsg (wtab (qu s) (widx (qu s) i))) in *.
  assert (NOSW : aside s s /\ exists j, current (lg s) = Some j /\ P s j = P s i /\ (@None nat = None -> j = i) /\ (@None nat <> None -> @None nat = Some j /\ j <> i) /\ (@None nat = None -> lg s = lg s /\ fl s = fl s)).
  { split; [apply aside_refl|]. exists i. repeat split; auto; contradiction. }
  destruct (negb (c_os3 c)); [cbn in E; inv_ok E; exact NOSW|]. destruct (_ || _) eqn:B0; [cbn in E; inv_ok E; exact NOSW|]. destruct (4294967295 <? old)%Z eqn:BL; [cbn in E; inv_ok E; exact NOSW|]. clear NOSW.
  set (arg := (if (2147483648 <=? old)%Z then (old - 4294967296)%Z else old)) in *.
  pose proof (pid2tcb_same (tb s) arg) as [TS TN]. pose proof (fun j => pid2tcb_spec (tb s) arg j TI) as FIND. destruct (pid2tcb (tb s) arg) as [t r0]. cbn [fst snd] in *.
  assert (PS : forall k, P (with_tb s t) k = P s k) by (intros k; unfold P, pidof; cbn; rewrite TS; reflexivity).
  assert (A1 : aside s (with_tb s t)) by (constructor; auto; [apply gk_refl|intros k; rewrite PS; auto]).
  destruct r0 as [j|].
  2:{ cbn in E. inv_ok E. split; [exact A1|]. exists i. split; [exact CU|]. split; [apply PS|]. repeat split; auto; contradiction. }
  destruct (proj1 (FIND j) eq_refl) as [B1 B2]. assert (Pj : P s j <> 0) by (unfold P; lia).
  assert (NE : j <> i). { intros ->. apply orb_false_iff in B0 as [B0 B3]. change (pidof (tb s) i) with (P s i) in B2. unfold arg in *. destruct (2147483648 <=? old)%Z eqn:Q; lia. }
  apply rbind_ok in E as ([r1 s1] & E1 & E). apply rbind_ok in E1 as (s2 & E1 & E2). apply rbind_ok in E2 as (s3 & E2 & E3). apply rbind_ok in E3 as (s4 & E3 & E4). inversion E4; subst r1 s1; clear E4.
  assert (L2 : logonly (with_tb s t) s2) by (eapply pr_only; [|exact E1]; intros l l'; apply switch_gk). pose proof (aside_drop _ _ _ _ E2) as A3. destruct (drop_P _ _ _ _ E2) as [P3 _].
  assert (P3j : P s3 j <> 0). { rewrite P3. apply Nat.eqb_neq in NE. rewrite NE. destruct L2 as [_ ->]. change (P (with_tb s t) j <> 0). rewrite PS. exact Pj. }
  set (s5 := with_tb s3 (rename (tb s3) j (P s i))) in *.
  assert (P5 : forall k, P s5 k = if Nat.eqb k j then P s i else P s3 k) by (intros k; apply nth_rename; exact P3j).
  assert (A5 : aside s3 s5). { constructor; auto; [apply gk_refl|]. intros k. rewrite P5. destruct (Nat.eqb_spec k j) as [->|]; auto. }
  assert (A4 : aside s5 s4 /\ tb s4 = tb s5).
  { destruct (c_stats c); [inv_ok E3; split; [apply aside_refl|reflexivity]|]. apply rbind_ok in E3 as (s6 & E3 & E4). inv_ok E4.
    assert (M6 : logonly s5 s6) by (destruct (c_qthread c); [inv_ok E3; apply logonly_refl|eapply message_only; exact E3]).
    split; [|destruct M6 as [_ ->]; destruct (c_all (lc c)); reflexivity]. eapply aside_trans; [apply aside_log; exact M6|]. eapply aside_trans; [|apply aside_setf; discriminate]. destruct (c_all (lc c)); [apply aside_refl|]. apply aside_log, logonly_with. split; reflexivity. }
  destruct A4 as [A4 T4]. inv_ok E. split.
  - eapply aside_trans; [exact A1|]. eapply aside_trans; [apply aside_log; exact L2|]. eapply aside_trans; [exact A3|]. eapply aside_trans; [exact A5|]. eapply aside_trans; [exact A4|]. apply aside_log, logonly_with. split; reflexivity.
  - exists j. split; [reflexivity|]. split; [unfold P; cbn; rewrite T4; change (P s5 j = P s i); rewrite P5, Nat.eqb_refl; reflexivity|]. split; [discriminate|]. split; [auto|discriminate].
Qed.

Lemma restart_reqs o s i sig err b s' : ptrace_restart o s i sig err = Ok (b, s') ->
  aside (ask s i o sig) s' /\ fl s' = fl s /\ dl s' = dl s /\ tb s' = tb s /\ (b = false -> err <> 0 /\ err <> ESRCH).
Proof.
  unfold ptrace_restart. cbv zeta. destruct (_ || _) eqn:EB; [intros E; inv_ok E; split; [apply aside_refl|repeat split; discriminate]|].
  intros E. apply rbind_ok in E as (s1 & E1 & E). inv_ok E. apply orb_false_iff in EB as [EB1 EB2]. apply N.eqb_neq in EB1, EB2.
  assert (L : logonly (ask s i o sig) s').
  { destruct (current _); [|inv_ok E1; apply logonly_refl]. destruct (_ =? 0); [inv_ok E1; apply logonly_refl|]. apply rbind_ok in E1 as (s2 & E1 & E2). inv_ok E2. eapply logonly_trans; [eapply tpr_only; exact E1|apply end_line_only]. }
  split; [apply aside_log; exact L|]. destruct L as [_ ->]. repeat split; auto.
Qed.
Lemma resume_goes s i wd o sig e b s' : resume s i wd o sig e = Ok (b, s') -> is_restart o = true ->
  goes_on s i (P s i) (match o with OP_LISTEN => true | _ => false end) sig s' /\ fl s' = fl s /\ tb s' = tb s /\ gk (lg s) (lg s') /\ child s' = child s /\
  (expiry (dl s') = expiry (dl s) /\ created (dl s') = created (dl s) /\ armed (dl s') = armed (dl s) /\ timer_at (dl s') = timer_at (dl s)) /\
  (exitc s' = exitc s \/ (exitc s' = 1 /\ b = false /\ e_err e <> 0 /\ e_err e <> ESRCH)) /\ rfail s' = rfail s /\ (intr s' = 0 -> intr s = 0).
Proof.
  unfold resume. cbv zeta. intros E OP. set (s1 := if e_intr e =? 0 then s else _) in *.
  assert (X : s1 = s \/ s1 = set_intr s (e_intr e) /\ e_intr e <> 0) by (unfold s1; destruct (N.eqb_spec (e_intr e) 0); auto). clearbody s1.
  destruct (N.eqb_spec (intr s1) 0) as [I0|I0]; cbn [negb] in E.
  - assert (s1 = s) as -> by (destruct X as [X|[-> X]]; [exact X|cbn in I0; congruence]). destruct (fl s i DELAYED) eqn:DE.
    + inv_ok E. split; [right; split; [reflexivity|right; exact DE]|]. repeat split; auto.
    + apply rbind_ok in E as ([ok s2] & E1 & E). destruct (restart_reqs _ _ _ _ _ _ _ E1) as (A & F & D & T & B).
      assert (G : goes_on s i (P s i) match o with OP_LISTEN => true | _ => false end sig s2).
      { left. exists o. split; [rewrite (as_reqs _ _ A); reflexivity|]. split; [exact OP|]. split; [destruct o; split; congruence|]. rewrite F. exact DE. }
      destruct ok; inv_ok E.
      * split; [exact G|]. rewrite F, T, D. split; [reflexivity|]. split; [reflexivity|]. split; [apply (as_gk _ _ A)|]. split; [apply (as_child _ _ A)|]. split; [auto|]. split; [left; apply (as_exit _ _ A)|]. split; [apply (as_rfail _ _ A)|]. auto.
      * split; [exact G|]. cbn. rewrite F, T, D. split; [reflexivity|]. split; [reflexivity|]. split; [apply (as_gk _ _ A)|]. split; [apply (as_child _ _ A)|]. split; [auto|]. split; [right; destruct (B eq_refl); auto|]. split; [apply (as_rfail _ _ A)|]. auto.
  - inv_ok E. destruct X as [->|[-> X]]; (split; [right; split; [reflexivity|left; exact I0]|]); repeat split; auto. intros Z. contradiction.
Qed.

(** a system call *)
Lemma trace_r c s i rec e r sg s' : trace_syscall c s i rec e = Ok (r, sg, s') -> (r < 0)%Z -> unread e.
Proof.
  unfold trace_syscall, unread. destruct (negb _).
  - intros E N. apply rbind_ok in E as ([r1 s1] & E1 & E). unfold syscall_entering_decode in E1. cbv zeta in E1. set (s0 := with_name s i _) in *. clearbody s0.
    assert (R : r1 = 0%Z \/ r1 = 1%Z \/ r1 = e_scno e \/ r1 = e_args e).
    { destruct (e_scno e =? 0)%Z; [inv_ok E1; auto|]. destruct (_ =? 1)%Z; [inv_ok E1; auto|]. apply rbind_ok in E1 as (s2 & _ & E1). apply rbind_ok in E1 as (s3 & _ & E1). inv_ok E1. destruct (e_scno e =? 1)%Z; auto. }
    destruct (r1 =? 0)%Z eqn:X; [inversion E; lia|]. destruct (r1 =? 1)%Z eqn:Y; [apply rbind_ok in E as ([[d g] s2] & _ & E); inversion E; lia|]. inversion E; subst. lia.
  - intros E N. unfold syscall_exiting_decode in E. destruct (fl s i FILTERED); [cbn in E; inversion E; lia|]. apply rbind_ok in E as ([r1 s1] & E1 & E). inversion E; subst r1 sg. destruct (x_res e =? 0)%Z eqn:X; [inversion E1; lia|].
    apply exiting_trace_keep in E1 as (_ & _ & [R|R]); lia.
Qed.

(** ** Events *)
Definition dies (wd : wdata) : bool := match te wd with TE_EXITED | TE_SIGNALLED => true | _ => false end.
Definition reads (wd : wdata) : bool := match te wd with TE_SYSCALL_STOP | TE_SECCOMP | TE_STOP_BEFORE_EXECVE => true | _ => false end.
Definition listens (c : cfg) (wd : wdata) : bool := match te wd with TE_GROUP_STOP => c_seize c | _ => false end.
Lemma goes_aside s s1 i p b sig s' : aside s s1 -> goes_on s1 i p b sig s' -> goes_on s i p b sig s'.
Proof. intros A [(o & B & C)|[B C]]; [left; exists o|right]; rewrite <- (as_reqs _ _ A); [|split; assumption]. destruct (as_gk _ _ A) as [G _]. rewrite <- G. split; assumption. Qed.
Lemma seccomp_restart s i e : is_restart (seccomp_op s i e) = true. Proof. unfold seccomp_op. destruct (_ && _); reflexivity. Qed.
Lemma seccomp_listen s i e : match seccomp_op s i e with OP_LISTEN => true | _ => false end = false. Proof. unfold seccomp_op. destruct (_ && _); reflexivity. Qed.
Lemma traced_goes c s i rec e r sg s1 : trace_syscall c s i rec e = Ok (r, sg, s1) -> reqs s1 = reqs s /\ gk (lg s) (lg s1) /\ tb s1 = tb s /\ (sg = 0 \/ sg = e_sig e) /\ ((r < 0)%Z -> unread e) /\ intr s1 = intr s /\ exitc s1 = exitc s /\ child s1 = child s /\ rfail s1 = rfail s.
Proof. intros E. pose proof (trace_r _ _ _ _ _ _ _ _ E) as U. apply trace_syscall_frame in E as T. repeat split; try apply T; auto. destruct (tr_sig _ _ _ _ _ _ T) as [|[]]; auto. Qed.
Lemma goes_traced s s1 i p b sig s' : reqs s1 = reqs s -> gk (lg s) (lg s1) -> goes_on s1 i p b sig s' -> goes_on s i p b sig s'.
Proof. intros R [G _] [(o & B & C)|[B C]]; [left; exists o|right]; rewrite <- R; [|split; assumption]. rewrite <- G. split; assumption. Qed.
Lemma dispatch_reqs c s i wd e b s' : tinv (tb s) -> dispatch_event c s (Some wd) e = Ok (b, s') -> busy wd = true -> current (lg s) = Some i -> P s i <> 0 -> (te wd = TE_STOP_BEFORE_EXECVE -> c_detexec c = false) ->
  if dies wd then reqs s' = reqs s
  else exists j sig, match te wd with TE_STOP_BEFORE_EXECVE => P s j <> 0 /\ P s' j <> 0 | _ => j = i end /\ (sig = due c wd \/ (reads wd = true /\ sig = e_sig e)) /\
    (goes_on s j (P s i) (listens c wd) sig s' \/ (reads wd = true /\ unread e /\ reqs s' = reqs s)).
Proof.
  intros TI E B CU Pi DX. unfold dispatch_event in E. unfold dies, reads, listens, due. rewrite CU in E.
  assert (R : forall s1 o sig, aside s s1 -> P s1 i = P s i -> is_restart o = true -> resume s1 i wd o sig e = Ok (b, s') -> goes_on s i (P s i) (match o with OP_LISTEN => true | _ => false end) sig s').
  { intros s1 o sig A PE OP E1. apply resume_goes in E1 as (G & _); [|exact OP]. rewrite PE in G. eapply goes_aside; eassumption. }
  assert (O0 : forall s0 s1 sig, aside s s1 -> P s1 i = P s i -> resume s1 i wd (if fl s i SECCOMP_FILTER then seccomp_op s0 i e else OP_SYSCALL) sig e = Ok (b, s') -> goes_on s i (P s i) false sig s').
  { intros s0 s1 sig A PE E1. apply R in E1; auto; [|destruct (fl s i SECCOMP_FILTER); [apply seccomp_restart|reflexivity]]. destruct (fl s i SECCOMP_FILTER); [rewrite seccomp_listen in E1|]; exact E1. }
  destruct (te wd) eqn:TE; try discriminate; try (unfold busy in B; rewrite TE in B; discriminate).
  - exists i, 0. split; [reflexivity|]. split; [auto|]. left. eapply O0; [apply aside_refl|reflexivity|exact E].
  - apply rbind_ok in E as ([[r sg] s1] & E1 & E). apply traced_goes in E1 as (A1 & A2 & A3 & A4 & A5 & _). exists i, sg. split; [reflexivity|]. split; [destruct A4; auto|].
    destruct (Z.ltb_spec r 0) as [L|L]; [inv_ok E; right; auto|]. left. apply resume_goes in E as (G & _); [|repeat destruct (fl _ _ _); auto using seccomp_restart].
    unfold P in G |- *. rewrite A3 in G. eapply goes_traced; [exact A1|exact A2|]. repeat destruct (fl _ _ _); try exact G; rewrite seccomp_listen in G; exact G.
  - apply rbind_ok in E as (s1 & E1 & E). pose proof (aside_stopped _ _ _ _ _ _ E1) as A. apply stopped_mild in E1 as (T & _). exists i, (WSTOPSIG (wstatus wd)). split; [reflexivity|]. split; [auto|]. left. eapply O0; [exact A|unfold P; rewrite T; reflexivity|exact E].
  - apply rbind_ok in E as (s1 & E1 & E). apply rbind_ok in E as (s2 & E2 & E). inv_ok E. apply aside_drop in E2. rewrite (as_reqs _ _ E2).
    unfold print_signalled in E1. cbv zeta in E1. set (s0 := if P s i =? child s then _ else s) in *. assert (reqs s0 = reqs s) as <- by (unfold s0; destruct (_ =? child s); reflexivity). clearbody s0. destruct (_ && _); [|inv_ok E1; reflexivity]. apply message_only in E1 as [_ ->]. reflexivity.
  - apply rbind_ok in E as (s1 & E1 & E). pose proof (aside_stopped _ _ _ _ _ _ E1) as A. apply stopped_mild in E1 as (T & _). assert (PE : P s1 i = P s i) by (unfold P; rewrite T; reflexivity). exists i, (if c_seize c then 0 else WSTOPSIG (wstatus wd)). split; [reflexivity|]. split; [auto|]. left.
    destruct (c_seize c); [exact (R _ OP_LISTEN _ A PE eq_refl E)|]. eapply O0; eassumption.
  - apply rbind_ok in E as (s1 & E1 & E). apply rbind_ok in E as (s2 & E2 & E). inv_ok E. apply aside_drop in E2. rewrite (as_reqs _ _ E2).
    unfold print_exited in E1. cbv zeta in E1. set (s0 := if P s i =? child s then _ else s) in *. assert (reqs s0 = reqs s) as <- by (unfold s0; destruct (_ =? child s); reflexivity). clearbody s0. destruct (_ && _); [|inv_ok E1; reflexivity]. apply message_only in E1 as [_ ->]. reflexivity.
  - set (s1 := setf s i CHECK_EXEC_SYSCALL false) in *. assert (A1 : aside s s1) by (apply aside_setf; discriminate). apply rbind_ok in E as ([sw s2] & E1 & E).
    destruct (aside_switch c s1 i sw s2 TI E1 CU Pi) as (A2 & j & C2 & P2 & _). rewrite C2 in E. pose proof (aside_trans _ _ _ A1 A2) as A3. apply rbind_ok in E as ([[bad sg] s3] & E2 & E). rewrite DX in E by reflexivity.
    assert (T : reqs s3 = reqs s2 /\ gk (lg s2) (lg s3) /\ tb s3 = tb s2 /\ (sg = 0 \/ sg = e_sig e) /\ (bad = true -> unread e)).
    { destruct (match sw with None => _ | Some _ => _ end); [|inv_ok E2; repeat split; auto; discriminate]. apply rbind_ok in E2 as ([[r sg1] s4] & E2 & E3). inv_ok E3. apply traced_goes in E2 as (B1 & B2 & B3 & B4 & B5 & _). split; [exact B1|]. split; [exact B2|]. split; [exact B3|]. split; [exact B4|]. intros L. apply B5, Z.ltb_lt, L. }
    destruct T as (B1 & B2 & B3 & B4 & B5). exists j, sg.
    assert (Pj3 : P s3 j <> 0) by (unfold P in *; rewrite B3; rewrite P2; exact Pi). split.
    { split; [apply (as_P _ _ A3); unfold P in *; rewrite P2; exact Pi|]. destruct bad; [inv_ok E; exact Pj3|]. apply resume_goes in E as (_ & _ & T & _); [|destruct (fl s i SECCOMP_FILTER); auto using seccomp_restart]. unfold P. rewrite T. exact Pj3. }
    split; [destruct B4; auto|]. destruct bad.
    + inv_ok E. right. split; [reflexivity|]. split; [auto|]. rewrite B1. apply (as_reqs _ _ A3).
    + left. apply resume_goes in E as (G & _); [|destruct (fl s i SECCOMP_FILTER); auto using seccomp_restart]. assert (PJ : P s3 j = P s i) by (unfold P in *; rewrite B3; exact P2). rewrite PJ in G.
      eapply goes_aside; [exact A3|]. eapply goes_traced; [exact B1|exact B2|]. destruct (fl s i SECCOMP_FILTER); [rewrite seccomp_listen in G|]; exact G.
  - apply rbind_ok in E as (s1 & E1 & E). pose proof (aside_exit_event _ _ _ _ E1) as A. apply exit_event_mild in E1 as (T & _). exists i, 0. split; [reflexivity|]. split; [auto|]. left. eapply O0; [exact A|unfold P; rewrite T; reflexivity|exact E].
  - assert (SYS : rbind (trace_syscall c s i false e) (fun x => let '(r, sig, s0) := x in if (r <? 0)%Z then Ok (true, s0) else resume s0 i wd (if fl s0 i SECCOMP_FILTER then if fl s0 i INSYSCALL then OP_SYSCALL else OP_CONT else (if fl s i SECCOMP_FILTER then seccomp_op s i e else OP_SYSCALL)) sig e) = Ok (b, s') ->
      exists j sig, j = i /\ (sig = 0 \/ true = true /\ sig = e_sig e) /\ (goes_on s j (P s i) false sig s' \/ true = true /\ unread e /\ reqs s' = reqs s)).
    { clear E. intros E. apply rbind_ok in E as ([[r sg] s1] & E1 & E). apply traced_goes in E1 as (A1 & A2 & A3 & A4 & A5 & _). exists i, sg. split; [reflexivity|]. split; [destruct A4; auto|].
      destruct (Z.ltb_spec r 0) as [L|L]; [inv_ok E; right; auto|]. left. apply resume_goes in E as (G & _); [|repeat destruct (fl _ _ _); auto using seccomp_restart].
      unfold P in G |- *. rewrite A3 in G. eapply goes_traced; [exact A1|exact A2|]. repeat destruct (fl _ _ _); try exact G; rewrite seccomp_listen in G; exact G. }
    destruct (negb (fl s i SECCOMP_FILTER)).
    + exists i, 0. split; [reflexivity|]. split; [auto|]. left. refine (R (setf s i SECCOMP_FILTER true) OP_SYSCALL 0 _ eq_refl eq_refl E). apply aside_setf. discriminate.
    + destruct (c_secbefore c); [|apply SYS; exact E]. exists i, 0. split; [reflexivity|]. split; [auto|]. left. exact (R s OP_SYSCALL 0 (aside_refl s) eq_refl eq_refl E).
Qed.

(** ** The timer *)
Definition same_clock (s s' : st) : Prop := expiry (dl s') = expiry (dl s) /\ created (dl s') = created (dl s) /\ armed (dl s') = armed (dl s) /\ timer_at (dl s') = timer_at (dl s).
Definition go (s : st) (i : nat) (o : op) (sig : N) : req := {| r_gen := gen (lg s) i; r_op := o; r_pid := P s i; r_sig := sig |}.
Lemma restart_delayed_one c s i e ok s' : restart_delayed_tcb c s i e = Ok (ok, s') ->
  tb s' = tb s /\ gk (lg s) (lg s') /\ qu s' = qu s /\ same_clock s s' /\ child s' = child s /\ rfail s' = rfail s /\ current (lg s') = current (lg s) /\
  (forall k g, fl s' k g = if Nat.eqb k i && flag_eqb g DELAYED then false else fl s k g) /\
  (exitc s' = exitc s \/ (exitc s' = 1 /\ ok = false)) /\ (intr s' = 0 -> intr s = 0) /\
  (exists l, reqs s' = reqs s ++ l /\ ((exists o, l = [go s i o 0] /\ is_restart o = true) \/ (l = [] /\ intr s' <> 0))).
Proof.
  unfold restart_delayed_tcb. cbv zeta. set (wd := {| te := TE_RESTART; wstatus := _; wmsg := _ |}). set (s1 := with_lg (setf s i DELAYED false) _). intros E. apply rbind_ok in E as ([ok1 s2] & E1 & E). inv_ok E. cbn [dispatch_event te wd] in E1. cbn [current lg with_lg s1 set_current] in E1.
  set (o := if fl s1 i SECCOMP_FILTER then seccomp_op s1 i e else OP_SYSCALL) in E1. assert (OP : is_restart o = true) by (unfold o; destruct (fl s1 i SECCOMP_FILTER); auto using seccomp_restart).
  pose proof (resume_mild _ _ _ _ _ _ _ _ E1) as (_ & _ & _ & _ & Q). destruct (resume_goes _ _ _ _ _ _ _ _ E1 OP) as (G & F & T & GK & C & CL & EX & RF & IN). cbn. split; [exact T|]. split; [exact GK|]. split; [exact Q|]. split; [exact CL|]. split; [exact C|]. split; [exact RF|]. split; [reflexivity|].
  split; [intros k g; rewrite F; reflexivity|]. split; [destruct EX as [EX|(EX & B & _)]; auto|]. split; [exact IN|].
  destruct G as [(o1 & A & B & _)|[A B]]; [exists [go s i o1 0]|exists []]; rewrite A; [split; [reflexivity|left; eauto]|]. split; [rewrite app_nil_r; reflexivity|]. right. split; [reflexivity|]. destruct B as [B|B]; [exact B|]. rewrite F in B. cbn in B. rewrite Nat.eqb_refl in B. discriminate.
Qed.
(** what the pass over the table does to the tracees [is] *)
Definition expired (s : st) (now : ts) (k : nat) : bool := negb (P s k =? 0) && fl s k DELAYED && (0 <? ts_cmp now (expiry (dl s) k))%Z.
Definition waiting (s : st) (k : nat) : bool := negb (P s k =? 0) && fl s k DELAYED.
Lemma restart_delayed_pass c now es is : forall s next ok s', NoDup is -> restart_delayed_from c s now is next es = Ok (ok, s') ->
  tb s' = tb s /\ gk (lg s) (lg s') /\ qu s' = qu s /\ expiry (dl s') = expiry (dl s) /\ child s' = child s /\ rfail s' = rfail s /\ current (lg s') = current (lg s) /\
  (exitc s' = exitc s \/ (exitc s' = 1 /\ ok = false)) /\ (intr s' = 0 -> intr s = 0) /\
  (forall k g, g <> DELAYED -> fl s' k g = fl s k g) /\
  (forall k, fl s' k DELAYED = true -> fl s k DELAYED = true) /\
  (forall k, fl s k DELAYED = true -> fl s' k DELAYED = false -> In k is /\ expired s now k = true) /\
  (ok = true -> forall k, In k is -> expired s now k = true -> fl s' k DELAYED = false) /\
  (exists l, reqs s' = reqs s ++ l /\ forall r, In r l -> exists k o, In k is /\ r = go s k o 0 /\ is_restart o = true /\ expired s now k = true /\ fl s' k DELAYED = false).
Proof.
  induction is as [|i is IH]; intros s next ok s' ND E; cbn [restart_delayed_from] in E.
  - inv_ok E. assert (X : forall s1, s1 = match next with Some j => arm_delay_timer s j | None => s end -> tb s1 = tb s /\ lg s1 = lg s /\ qu s1 = qu s /\ expiry (dl s1) = expiry (dl s) /\ child s1 = child s /\ rfail s1 = rfail s /\ exitc s1 = exitc s /\ intr s1 = intr s /\ fl s1 = fl s /\ reqs s1 = reqs s) by (intros s1 ->; destruct next; repeat split).
    destruct (X _ eq_refl) as (A1 & A2 & A3 & A4 & A5 & A6 & A7 & A8 & A9 & A10). rewrite A1, A2, A3, A4, A5, A6, A7, A8, A9. repeat split; auto; try congruence; try contradiction. exists []. rewrite app_nil_r. split; [exact A10|intros r []].
  - inversion ND as [|x y NI ND']; subst x y.
    destruct (negb (P s i =? 0) && fl s i DELAYED) eqn:W; [destruct (0 <? ts_cmp now (expiry (dl s) i))%Z eqn:X|].
    + apply rbind_ok in E as ([ok1 s1] & E1 & E). destruct (restart_delayed_one _ _ _ _ _ _ E1) as (A1 & A2 & A3 & (A4 & _) & A5 & A6 & A7 & A8 & A9 & A10 & l1 & A11 & A12).
      assert (XI : expired s now i = true) by (unfold expired; rewrite W, X; reflexivity).
      assert (D1 : forall k, fl s1 k DELAYED = if Nat.eqb k i then false else fl s k DELAYED) by (intros k; rewrite A8; destruct (Nat.eqb k i); reflexivity).
      assert (XS : forall k, expired s1 now k = negb (Nat.eqb k i) && expired s now k) by (intros k; unfold expired, P; rewrite A1, A4, D1; destruct (Nat.eqb k i); cbn; rewrite ?andb_false_r; reflexivity).
      assert (G1 : forall k o, go s1 k o 0 = go s k o 0) by (intros k o; unfold go, P; rewrite A1; destruct A2 as [-> _]; reflexivity).
      destruct ok1.
      * destruct (IH _ _ _ _ ND' E) as (B1 & B2 & B3 & B4 & B5 & B6 & B7 & B8 & B9 & B10 & B11 & B12 & B13 & l2 & B14 & B15).
        repeat match goal with |- _ /\ _ => split end; try congruence; auto.
        -- eapply gk_trans; eassumption.
        -- destruct A9 as [A9|[_ A9]]; [|discriminate]. rewrite <- A9. exact B8.
        -- intros k g N. rewrite B10 by exact N. rewrite A8. destruct g; try contradiction; rewrite andb_false_r; reflexivity.
        -- intros k H. apply B11 in H. rewrite D1 in H. destruct (Nat.eqb k i); [discriminate|exact H].
        -- intros k H H'. destruct (Nat.eqb_spec k i) as [->|N]; [split; [left; reflexivity|exact XI]|]. destruct (B12 k) as [C1 C2]; [rewrite D1; apply Nat.eqb_neq in N; rewrite N; exact H|exact H'|]. rewrite XS in C2. apply andb_true_iff in C2. split; [right|]; tauto.
        -- intros -> k [<-|H] H'; [destruct (fl s' i DELAYED) eqn:Y; [|reflexivity]; apply B11 in Y; rewrite D1, Nat.eqb_refl in Y; discriminate|]. apply B13; auto. rewrite XS, H'. destruct (Nat.eqb_spec k i) as [->|]; [contradiction|reflexivity].
        -- exists (l1 ++ l2). rewrite B14, A11, app_assoc. split; [reflexivity|]. intros r H. apply in_app_iff in H as [H|H].
           ++ destruct A12 as [(o & -> & O)|[-> _]]; [|destruct H]. destruct H as [<-|[]]. exists i, o. split; [left; reflexivity|]. split; [reflexivity|]. split; [exact O|]. split; [exact XI|]. destruct (fl s' i DELAYED) eqn:Y; [|reflexivity]; apply B11 in Y; rewrite D1, Nat.eqb_refl in Y; discriminate.
           ++ destruct (B15 r H) as (k & o & C1 & C2 & C3 & C4 & C5). rewrite G1 in C2. rewrite XS in C4. apply andb_true_iff in C4. exists k, o. split; [right; exact C1|]. tauto.
      * inversion E; subst ok s'. repeat match goal with |- _ /\ _ => split end; try congruence; auto.
        -- intros k g N. rewrite A8. destruct g; try contradiction; rewrite andb_false_r; reflexivity.
        -- intros k H. rewrite D1 in H. destruct (Nat.eqb k i); [discriminate|exact H].
        -- intros k H H'. rewrite D1 in H'. destruct (Nat.eqb_spec k i) as [->|N]; [split; [left; reflexivity|exact XI]|congruence].
        -- exists l1. split; [exact A11|]. intros r H. destruct A12 as [(o & -> & O)|[-> _]]; [|destruct H]. destruct H as [<-|[]]. exists i, o. split; [left; reflexivity|]. split; [reflexivity|]. split; [exact O|]. split; [exact XI|]. rewrite D1, Nat.eqb_refl. reflexivity.
    + destruct (IH _ _ _ _ ND' E) as (B1 & B2 & B3 & B4 & B5 & B6 & B7 & B8 & B9 & B10 & B11 & B12 & B13 & l2 & B14 & B15). repeat match goal with |- _ /\ _ => split end; auto.
      -- intros k H H'. destruct (B12 k H H'). split; [right|]; assumption.
      -- intros O k [<-|H] H'; [|auto]. unfold expired in H'. rewrite W, X in H'. discriminate.
      -- exists l2. split; [exact B14|]. intros r H. destruct (B15 r H) as (k & o & C1 & C2). exists k, o. split; [right; exact C1|exact C2].
    + destruct (IH _ _ _ _ ND' E) as (B1 & B2 & B3 & B4 & B5 & B6 & B7 & B8 & B9 & B10 & B11 & B12 & B13 & l2 & B14 & B15). repeat match goal with |- _ /\ _ => split end; auto.
      -- intros k H H'. destruct (B12 k H H'). split; [right|]; assumption.
      -- intros O k [<-|H] H'; [|auto]. unfold expired in H'. rewrite W in H'. discriminate.
      -- exists l2. split; [exact B14|]. intros r H. destruct (B15 r H) as (k & o & C1 & C2). exists k, o. split; [right; exact C1|exact C2].
Qed.
Lemma ts_le_trans a b c : (ts_cmp a b <= 0)%Z -> (ts_cmp b c <= 0)%Z -> (ts_cmp a c <= 0)%Z.
Proof.
  unfold ts_cmp. destruct (Z.ltb_spec (sec a) (sec b)), (Z.eqb_spec (sec a) (sec b)), (Z.ltb_spec (nsec a) (nsec b)), (Z.ltb_spec (sec b) (sec a)), (Z.ltb_spec (nsec b) (nsec a)); cbn [orb andb]; intros X; try lia;
  destruct (Z.ltb_spec (sec b) (sec c)), (Z.eqb_spec (sec b) (sec c)), (Z.ltb_spec (nsec b) (nsec c)), (Z.ltb_spec (sec c) (sec b)), (Z.ltb_spec (nsec c) (nsec b)); cbn [orb andb]; intros Y; try lia;
  destruct (Z.ltb_spec (sec a) (sec c)), (Z.eqb_spec (sec a) (sec c)), (Z.ltb_spec (nsec a) (nsec c)), (Z.ltb_spec (sec c) (sec a)), (Z.ltb_spec (nsec c) (nsec a)); cbn [orb andb]; lia.
Qed.
Lemma ts_cmp_refl a : ts_cmp a a = 0%Z. Proof. unfold ts_cmp. rewrite !Z.ltb_irrefl, andb_false_r. reflexivity. Qed.
Lemma ts_cmp_flip a b : (0 < ts_cmp a b)%Z -> (ts_cmp b a <= 0)%Z.
Proof. unfold ts_cmp. destruct (Z.ltb_spec (sec a) (sec b)), (Z.eqb_spec (sec a) (sec b)), (Z.eqb_spec (sec b) (sec a)), (Z.ltb_spec (nsec a) (nsec b)), (Z.ltb_spec (sec b) (sec a)), (Z.ltb_spec (nsec b) (nsec a)); cbn [orb andb]; lia. Qed.
(** the timer is set for the first of those that are not over *)
Lemma restart_delayed_min c now es is : forall s next s', NoDup is -> restart_delayed_from c s now is next es = Ok (true, s') ->
  (forall k, next = Some k \/ (In k is /\ waiting s k = true /\ expired s now k = false) -> armed (dl s') = true /\ created (dl s') = true /\ (ts_cmp (timer_at (dl s')) (expiry (dl s) k) <= 0)%Z) /\
  (armed (dl s) = false -> armed (dl s') = true -> exists k, (next = Some k \/ (In k is /\ waiting s k = true)) /\ timer_at (dl s') = expiry (dl s) k) /\ (created (dl s) = true -> created (dl s') = true).
Proof.
  induction is as [|i is IH]; intros s next s' ND E; cbn [restart_delayed_from] in E.
  - inv_ok E. split; [|split].
    + intros k [->|[[] _]]. cbn. rewrite ts_cmp_refl. repeat split; lia.
    + destruct next as [j|]; [intros _ _; exists j; split; [left; reflexivity|reflexivity]|congruence].
    + destruct next; auto.
  - inversion ND as [|x y NI ND']; subst x y. fold (waiting s i) in E. destruct (waiting s i) eqn:W; [destruct (0 <? ts_cmp now (expiry (dl s) i))%Z eqn:X|].
    + apply rbind_ok in E as ([ok1 s1] & E1 & E). destruct ok1; [|discriminate]. destruct (restart_delayed_one _ _ _ _ _ _ E1) as (A1 & _ & _ & (A4 & AC & AA & _) & _ & _ & _ & A8 & _).
      assert (D1 : forall k, k <> i -> fl s1 k DELAYED = fl s k DELAYED) by (intros k N; rewrite A8; apply Nat.eqb_neq in N; rewrite N; reflexivity).
      destruct (IH _ _ _ ND' E) as (B1 & B2 & B3). rewrite A4 in *. assert (WS : forall k, In k is -> waiting s1 k = waiting s k /\ expired s1 now k = expired s now k) by (intros k H; unfold waiting, expired, P; rewrite A1, A4, D1 by (intros ->; contradiction); auto). split; [|split].
      * intros k [H|(H & H1 & H2)]; [apply B1; auto|]. destruct H as [<-|H]; [unfold expired in H2; fold (waiting s i) in H2; rewrite W, X in H2; discriminate|]. apply B1. right. destruct (WS k H) as [-> ->]. auto.
      * rewrite AA in B2. intros N A. destruct (B2 N A) as (k & [H|(H & H1)] & T); exists k; (split; [|exact T]); [left; exact H|right]. destruct (WS k H) as [H3 _]. rewrite H3 in H1. split; [right; exact H|exact H1].
      * rewrite AC in B3. exact B3.
    + destruct (IH _ _ _ ND' E) as (B1 & B2 & B3). set (nx := match next with None => Some i | Some j => if (0 <? ts_cmp (expiry (dl s) j) (expiry (dl s) i))%Z then Some i else next end) in *.
      assert (NX : exists j, nx = Some j /\ (j = i \/ next = Some j) /\ (ts_cmp (expiry (dl s) j) (expiry (dl s) i) <= 0)%Z /\ (forall k, next = Some k -> ts_cmp (expiry (dl s) j) (expiry (dl s) k) <= 0)%Z).
      { unfold nx. destruct next as [j|]; [destruct (0 <? ts_cmp (expiry (dl s) j) (expiry (dl s) i))%Z eqn:Y|].
        - exists i. rewrite ts_cmp_refl. split; [reflexivity|]. split; [auto|]. split; [lia|]. intros k K. inversion K; subst. apply ts_cmp_flip. lia.
        - exists j. split; [reflexivity|]. split; [auto|]. split; [lia|]. intros k K. inversion K; subst. rewrite ts_cmp_refl. lia.
        - exists i. rewrite ts_cmp_refl. split; [reflexivity|]. split; [auto|]. split; [lia|]. discriminate. }
      destruct NX as (j & N1 & N2 & N3 & N4). destruct (B1 j (or_introl N1)) as (C1 & C0 & C2). split; [|split].
      * intros k [H|([<-|H] & H1 & H2)]; [|split; [exact C1|]; split; [exact C0|]; eapply ts_le_trans; eassumption|apply B1; right; auto]. split; [exact C1|]. split; [exact C0|]. eapply ts_le_trans; [exact C2|apply N4; exact H].
      * intros N A. destruct (B2 N A) as (k & [H|(H & H1)] & T); exists k; (split; [|exact T]); [|right; split; [right; exact H|exact H1]]. assert (k = j) as -> by congruence. destruct N2 as [->|N2]; [right; split; [left; reflexivity|exact W]|left; exact N2].
      * exact B3.
    + destruct (IH _ _ _ ND' E) as (B1 & B2 & B3). split; [|split; [|exact B3]].
      * intros k [H|([<-|H] & H1 & H2)]; [apply B1; auto|congruence|apply B1; right; auto].
      * intros N A. destruct (B2 N A) as (k & [H|(H & H1)] & T); exists k; (split; [|exact T]); [left; exact H|right; split; [right; exact H|exact H1]].
Qed.
(** what the timer's handler does *)
Definition rung (s : st) (now : ts) (s' : st) : Prop :=
  tb s' = tb s /\ gk (lg s) (lg s') /\ qu s' = qu s /\ expiry (dl s') = expiry (dl s) /\ child s' = child s /\ current (lg s') = current (lg s) /\
  (exitc s' = exitc s \/ (exitc s' = 1 /\ rfail s' = true)) /\ (intr s' = 0 -> intr s = 0) /\ (rfail s = true -> rfail s' = true) /\
  (forall k g, g <> DELAYED -> fl s' k g = fl s k g) /\
  (forall k, fl s' k DELAYED = true -> fl s k DELAYED = true) /\
  (forall k, fl s k DELAYED = true -> fl s' k DELAYED = false -> expired s now k = true) /\
  (rfail s' = false -> forall k, waiting s k = true -> if expired s now k then fl s' k DELAYED = false else armed (dl s') = true /\ created (dl s') = true /\ (ts_cmp (timer_at (dl s')) (expiry (dl s) k) <= 0)%Z) /\
  (rfail s' = false -> armed (dl s') = true -> exists k, waiting s k = true /\ timer_at (dl s') = expiry (dl s) k) /\
  (exists l, reqs s' = reqs s ++ l /\ forall r, In r l -> exists k o, r = go s k o 0 /\ is_restart o = true /\ expired s now k = true /\ fl s' k DELAYED = false).
Lemma P_live s k : P s k <> 0 -> In k (seq 0 (length (pids (tb s)))).
Proof. unfold P, pidof. intros H. apply in_seq. destruct (Nat.lt_ge_cases k (length (pids (tb s)))); [lia|]. rewrite nth_overflow in H by lia. congruence. Qed.
Lemma timer_rung c s now es s' : timer_sighandler c s now es = Ok s' -> rung s now s'.
Proof.
  unfold timer_sighandler. cbv zeta. set (s0 := with_dl s _). destruct (rfail s0) eqn:RF.
  - change (rfail s = true) in RF. intros E. inversion E; subst s'; clear E. unfold rung. cbn [tb lg qu dl expiry child exitc intr rfail fl reqs s0 with_dl]. repeat match goal with |- _ /\ _ => split end; auto; try apply gk_refl; try congruence.
    exists []. rewrite app_nil_r. split; [reflexivity|intros r []].
  - change (rfail s = false) in RF. intros E. apply rbind_ok in E as ([ok s1] & E1 & E). unfold restart_delayed_tcbs in E1. pose proof (seq_NoDup (length (pids (tb s0))) 0) as ND.
    destruct (restart_delayed_pass _ _ _ _ _ _ _ _ ND E1) as (B1 & B2 & B3 & B4 & B5 & B6 & B7 & B8 & B9 & B10 & B11 & B12 & B13 & l & B14 & B15).
    assert (WP : forall k, waiting s k = true -> In k (seq 0 (length (pids (tb s0))))) by (intros k W; apply P_live; unfold waiting in W; apply andb_true_iff in W as [W _]; apply negb_true_iff, N.eqb_neq in W; exact W).
    assert (R : rfail s' = negb ok) by (destruct ok; inversion E; subst s'; [rewrite B6; exact RF|reflexivity]).
    assert (SAME : tb s' = tb s1 /\ lg s' = lg s1 /\ qu s' = qu s1 /\ dl s' = dl s1 /\ child s' = child s1 /\ exitc s' = exitc s1 /\ intr s' = intr s1 /\ fl s' = fl s1 /\ reqs s' = reqs s1) by (destruct ok; inversion E; subst s'; repeat split).
    destruct SAME as (S1 & S2 & S3 & S4 & S5 & S6 & S7 & S8 & S9). unfold rung. rewrite R, S1, S2, S3, S4, S5, S6, S7, S8, S9.
    split; [exact B1|]. split; [exact B2|]. split; [exact B3|]. split; [exact B4|]. split; [exact B5|]. split; [exact B7|]. split; [destruct B8 as [B8|[B8 ->]]; [left; exact B8|right; auto]|]. split; [exact B9|]. split; [congruence|].
    split; [exact B10|]. split; [exact B11|]. split; [intros k H H'; apply (B12 k H H')|].
    split; [|split].
    + intros OK. apply negb_false_iff in OK. subst ok. intros k W. destruct (expired s now k) eqn:X; [apply B13; auto|]. apply (proj1 (restart_delayed_min _ _ _ _ _ _ _ ND E1) k). right. auto.
    + intros OK. apply negb_false_iff in OK. subst ok. intros A. destruct (proj1 (proj2 (restart_delayed_min _ _ _ _ _ _ _ ND E1)) eq_refl A) as (k & [H|[H H1]] & T); [discriminate|]. exists k. split; [exact H1|exact T].
    + exists l. split; [exact B14|]. intros r H. destruct (B15 r H) as (k & o & C1 & C2 & C3 & C4 & C5). exists k, o. auto.
Qed.

(** ** Waiting *)
Record idle (s s' : st) : Prop := {
  id_reqs : reqs s' = reqs s; id_intr : intr s' = intr s; id_rfail : rfail s' = rfail s; id_exit : exitc s' = exitc s;
  id_clock : same_clock s s';
  id_P : forall k, P s k <> 0 -> P s' k = P s k /\ gen (lg s') k = gen (lg s) k;
  id_del : forall k, fl s' k DELAYED = true -> fl s k DELAYED = true;
  id_delk : forall k, P s k <> 0 -> fl s' k DELAYED = fl s k DELAYED;
  id_new : forall k, P s k = 0 -> P s' k <> 0 -> fl s' k DELAYED = false;
  id_tinv : tinv (tb s') }.
Lemma idle_refl s : tinv (tb s) -> idle s s. Proof. intros T. constructor; auto; [repeat split|congruence]. Qed.
Lemma idle_trans a b c : idle a b -> idle b c -> idle a c.
Proof.
  intros A B. destruct (id_clock _ _ A) as (A1 & A2 & A3 & A4), (id_clock _ _ B) as (B1 & B2 & B3 & B4). constructor.
  - rewrite (id_reqs _ _ B). apply (id_reqs _ _ A).
  - rewrite (id_intr _ _ B). apply (id_intr _ _ A).
  - rewrite (id_rfail _ _ B). apply (id_rfail _ _ A).
  - rewrite (id_exit _ _ B). apply (id_exit _ _ A).
  - repeat split; congruence.
  - intros k H. destruct (id_P _ _ A k H) as [X Y]. destruct (id_P _ _ B k ltac:(congruence)). split; congruence.
  - intros k H. apply (id_del _ _ A), (id_del _ _ B), H.
  - intros k H. destruct (id_P _ _ A k H) as [X _]. rewrite (id_delk _ _ B) by congruence. apply (id_delk _ _ A), H.
  - intros k H H'. destruct (N.eq_dec (P b k) 0) as [Z|Z]; [apply (id_new _ _ B); assumption|]. rewrite (id_delk _ _ B k Z). apply (id_new _ _ A); assumption.
  - apply (id_tinv _ _ B).
Qed.
Lemma idle_same s s' : reqs s' = reqs s -> intr s' = intr s -> rfail s' = rfail s -> exitc s' = exitc s -> dl s' = dl s -> (forall k, P s' k = P s k) -> gen (lg s') = gen (lg s) ->
  (forall k, fl s' k DELAYED = fl s k DELAYED) -> tinv (tb s') -> idle s s'.
Proof. intros H1 H2 H3 H4 H5 H6 H7 H8 H9. constructor; auto; intros; rewrite ?H8, ?H6, ?H7 in *; auto; try congruence. unfold same_clock. rewrite H5. auto. Qed.
Lemma idle_setf s i f b : f <> DELAYED -> tinv (tb s) -> idle s (setf s i f b).
Proof. intros F T. apply idle_same; auto. intros k. cbn. destruct f; try contradiction; rewrite andb_false_r; reflexivity. Qed.
Lemma idle_new s pid i s' : tinv (tb s) -> pid <> 0 -> (forall i, P s i <> pid) -> new_tcb s pid = Ok (i, s') -> idle s s'.
Proof.
  intros T PN F E. unfold new_tcb in E. apply rbind_ok in E as ([t j] & E1 & E). pose proof (alloctcb_ok _ _ T PN F) as A. rewrite E1 in A. destruct A as (A1 & A2 & A3). inversion E; subst j s'; clear E.
  constructor; try reflexivity; cbn.
  - repeat split.
  - intros k H. change (pidof t k = pidof (tb s) k /\ (if Nat.eqb k i then ngen (lg s) else gen (lg s) k) = gen (lg s) k). rewrite A3. destruct (Nat.eqb_spec k i) as [->|]; [contradiction|auto].
  - intros k. destruct (Nat.eqb k i); [discriminate|auto].
  - intros k H. destruct (Nat.eqb_spec k i) as [->|]; [contradiction|reflexivity].
  - intros k H H'. change (pidof t k <> 0) in H'. rewrite A3 in H'. destruct (Nat.eqb_spec k i); [reflexivity|]. contradiction.
  - exact A1.
Qed.
Lemma idle_fold fs : ~ In DELAYED fs -> forall s i, tinv (tb s) -> idle s (fold_left (fun s f => setf s i f true) fs s).
Proof.
  induction fs as [|f fs IH]; intros N s i T; cbn [fold_left]; [apply idle_refl; exact T|]. eapply idle_trans; [apply (idle_setf s i f true)|apply IH].
  - intros ->. apply N. left. reflexivity.
  - exact T.
  - intros H. apply N. right. exact H.
  - exact T.
Qed.
Lemma idle_attached c s i fs : ~ In DELAYED fs -> tinv (tb s) -> idle s (attached c s i fs).
Proof.
  intros N T. unfold attached. eapply idle_trans; [apply (idle_setf s i ATTACHED true); [discriminate|exact T]|]. eapply idle_trans; [apply (idle_setf _ i STARTUP true); [discriminate|exact T]|]. cbv zeta.
  pose proof (idle_fold fs N (setf (setf s i ATTACHED true) i STARTUP true) i T) as F. eapply idle_trans; [exact F|]. apply idle_same; auto. apply (id_tinv _ _ F).
Qed.
Lemma collect_idle c ws : forall s nh pos r s', tinv (tb s) -> collect c s nh pos ws = Ok (r, s') -> idle s s'.
Proof.
  induction ws as [|w ws IH]; intros s nh pos r s' T E; cbn [collect] in E; [inversion E; apply idle_refl; congruence|].
  destruct w as [er|pid st si msg].
  - destruct (er =? EINTR); [inversion E; apply idle_refl; congruence|]. destruct nh; [inversion E; apply idle_refl; congruence|]. destruct (_ && _); [inversion E; apply idle_refl; congruence|discriminate].
  - destruct (N.eqb_spec pid 0) as [Z|Z]; [inversion E; apply idle_refl; congruence|]. destruct (pid =? popen s).
    { inversion E; subst r s'. destruct (WIFSTOPPED st); [apply idle_refl; exact T|apply idle_same; auto]. }
    pose proof (pid2tcb_inv (tb s) (Z.of_N pid) T) as TI. pose proof (pid2tcb_same (tb s) (Z.of_N pid)) as [TS _]. pose proof (fun j => pid2tcb_spec (tb s) (Z.of_N pid) j T) as FIND.
    destruct (pid2tcb (tb s) (Z.of_N pid)) as [t found]. cbn [fst snd] in *. set (s1 := with_tb s t) in *. assert (I1 : idle s s1) by (apply idle_same; auto; intros k; unfold P, pidof; cbn; rewrite TS; reflexivity).
    apply rbind_ok in E as ([fo s2] & E1 & E). assert (I2 : idle s s2).
    { destruct found as [i|]; [inversion E1; subst; exact I1|]. assert (NF : forall i, P s1 i <> pid) by (intros i X; specialize (FIND i); assert (None = Some i); [|discriminate]; apply FIND; unfold P, pidof in X; cbn in X; rewrite TS in X; unfold pidof; rewrite X; lia).
      unfold maybe_allocate_tcb in E1. destruct (negb _).
      - inversion E1; subst fo s2. eapply idle_trans; [exact I1|]. destruct (_ && _); [apply idle_same; auto|apply idle_refl; exact TI].
      - destruct (c_follow c); [|inversion E1; subst fo s2; exact I1]. apply rbind_ok in E1 as ([i s3] & E2 & E1). inversion E1; subst fo s2. assert (I3 : idle s1 s3) by (eapply idle_new; [exact TI|exact Z|exact NF|exact E2]). eapply idle_trans; [exact I1|]. eapply idle_trans; [exact I3|]. apply idle_attached; [destruct (c_seize c); cbn; [tauto|intros [X|[]]; discriminate X]|apply (id_tinv _ _ I3)]. }
    destruct fo as [i|]; [|eapply idle_trans; [exact I2|eapply IH; [apply (id_tinv _ _ I2)|exact E]]].
    destruct (classify _ _ _ _ _) as [wd cl]. set (s3 := if cl then _ else s2) in *. assert (I3 : idle s s3) by (unfold s3; destruct cl; [eapply idle_trans; [exact I2|apply idle_setf; [discriminate|apply (id_tinv _ _ I2)]]|exact I2]).
    assert (I4 : idle s (enqueue s3 i pos wd)) by (eapply idle_trans; [exact I3|]; apply idle_same; auto; apply (id_tinv _ _ I3)).
    destruct (extra _); [inversion E; subst; exact I4|]. eapply idle_trans; [exact I4|]. eapply IH; [apply (id_tinv _ _ I4)|exact E].
Qed.
Lemma event_exit_idle c s i oe gn w s' : tinv (tb s) -> event_exit c s i oe gn = Ok (w, s') -> idle s s'.
Proof.
  intros T E. unfold event_exit in E. apply rbind_ok in E as (s1 & E1 & E). inversion E; subst w s'; clear E.
  assert (idle s s1) as I.
  { destruct (fl s i STARTUP); [|inversion E1; apply idle_refl; congruence]. unfold startup_tcb in E1. cbv zeta in E1. destruct (_ && _); [discriminate|]. inversion E1; subst s1; clear E1. eapply idle_trans; [apply (idle_setf s i STARTUP false); [discriminate|exact T]|]. match goal with |- idle _ (if ?b then _ else _) => destruct b end; [apply idle_same; auto|apply idle_refl; exact T]. }
  eapply idle_trans; [exact I|]. apply idle_same; auto. apply (id_tinv _ _ I).
Qed.
Lemma get_tcp_idle c s oe gn w s' : tinv (tb s) -> get_tcp c s oe gn = Ok (w, s') -> idle s s'.
Proof.
  intros T E. unfold get_tcp in E. cbv zeta in E. destruct (pending (qu s)) as [|i r]; [inversion E; subst; apply idle_same; auto|]. eapply idle_trans; [|eapply event_exit_idle; [|exact E]; exact T]. apply idle_same; auto.
Qed.
(** waiting for the next event: the timer's handler may run *)
Lemma next_idle c s n w s' : tinv (tb s) -> next_event c s n = Ok (w, s') ->
  idle (if n_intr n =? 0 then s else set_intr s (n_intr n)) s' \/
  (exists now es s1, n_intr n = 0 /\ intr s = 0 /\ queued s = [] /\ n_timer n = Some (now, es) /\ armed (dl s) = true /\ rung s now s1 /\ idle s1 s' /\ (w <> None -> rfail s1 = false) /\ timer_sighandler c s now es = Ok s1).
Proof.
  intros T E. unfold next_event in E. set (s0 := if n_intr n =? 0 then s else set_intr s (n_intr n)) in *. assert (T0 : tinv (tb s0)) by (unfold s0; destruct (n_intr n =? 0); exact T).
  destruct (negb (intr s0 =? 0)) eqn:I0; [left; inversion E; subst; apply idle_refl; exact T0|]. destruct (limit s0 =? 0)%Z; [left; inversion E; subst; apply idle_same; auto|].
  destruct (pending (qu s0)) as [|i0 r0] eqn:PE; [|left; eapply get_tcp_idle; eassumption].
  destruct (extra (qu s0)) as [[i idx]|] eqn:EX.
  { left. eapply idle_trans; [|eapply event_exit_idle; [|exact E]; exact T0]. apply idle_same; auto. }
  destruct (_ && _); [left; inversion E; subst; apply idle_refl; exact T0|]. apply rbind_ok in E as ([stop s1] & E1 & E).
  assert (TAIL : forall s1, tinv (tb s1) -> (if stop then Ok (None, s1) else rlet (r, s) := collect c s1 false 0 (n_waits n) in match r with CNull => Ok (None, s) | CBreak => get_tcp c s (n_opterr n) (n_gname n) end) = Ok (w, s') -> idle s1 s' /\ (w <> None -> stop = false)).
  { clear. intros s1 T E. destruct stop; [inversion E; subst; split; [apply idle_refl; exact T|congruence]|]. split; [|auto]. apply rbind_ok in E as ([r s2] & E1 & E). apply collect_idle in E1 as I1; [|exact T]. destruct r; [|inversion E; subst; exact I1]. eapply idle_trans; [exact I1|]. eapply get_tcp_idle; [apply (id_tinv _ _ I1)|exact E]. }
  destruct (armed (dl s0)) eqn:AR; [|inversion E1; subst stop s1; left; apply TAIL; assumption]. apply rbind_ok in E1 as (s2 & E1 & E2). inversion E2; subst stop s2; clear E2.
  destruct (n_timer n) as [[now es]|] eqn:NT; [|inversion E1; subst s1; left; apply TAIL; assumption].
  right. unfold s0 in *. destruct (N.eqb_spec (n_intr n) 0) as [NI|NI]; [|cbn in I0; apply negb_false_iff, N.eqb_eq in I0; contradiction]. pose proof (timer_rung _ _ _ _ _ E1) as R. destruct (TAIL s1) as [I1 W]; [rewrite (proj1 R); exact T|exact E|].
  exists now, es, s1. split; [exact NI|]. split; [apply negb_false_iff, N.eqb_eq in I0; exact I0|]. split; [unfold queued; rewrite PE, EX; reflexivity|]. auto 10.
Qed.
