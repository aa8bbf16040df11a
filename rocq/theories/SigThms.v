(** Signals and the end of strace: C26, C29. *)
From Verif Require Import Base TimeModel WaitModel TcbModel TcbProofs LogModel LogProofs LoopModel LoopSpec LoopFrame LoopCore LoopQueue LoopReach LoopReq LoopSig LoopEx.
Local Open Scope N_scope.

(** ** C26 *)
(** What a stop is about: a stop that is not an event, not the SIGSTOP of attaching and not a system
    call is due the signal it shows; anything else is due none.  Without PTRACE_SEIZE a group-stop
    cannot be told from the delivery of its signal, and is treated alike. *)
Theorem C26_signal_of_stop c ign st siok msg : WIFSTOPPED st = true -> (c_seize c = false -> N.shiftr st 16 <> EV_STOP) ->
  due c (fst (classify c ign st siok msg)) =
  if (N.shiftr st 16 =? 0) && negb ((WSTOPSIG st =? SIGSTOP) && ign) && negb (WSTOPSIG st =? c_trapsig c) && (siok || negb (c_seize c)) then WSTOPSIG st else 0.
Proof.
  intros W NS. unfold classify. unfold WIFSTOPPED in W. apply N.eqb_eq in W. assert (T : WTERMSIG st = 127).
  { unfold WTERMSIG. change 0x7f with (N.land 0xff 0x7f) at 1. rewrite N.land_assoc, W. reflexivity. }
  unfold WIFSIGNALED, WIFEXITED. rewrite T. cbn -[N.shiftr WSTOPSIG N.eqb]. change (127 + 1 <? 128) with false. change (127 =? 0) with false. cbv iota.
  destruct (N.eqb_spec (N.shiftr st 16) 0) as [Z|Z].
  - destruct (WSTOPSIG st =? SIGSTOP), ign; cbn -[N.shiftr WSTOPSIG N.eqb]; try reflexivity; destruct (WSTOPSIG st =? c_trapsig c); try reflexivity; destruct siok; cbn -[N.shiftr WSTOPSIG N.eqb]; try reflexivity; unfold due; cbn; destruct (c_seize c); reflexivity.
  - cbn [andb]. destruct (N.eqb_spec (N.shiftr st 16) EV_STOP) as [X|X].
    + destruct (c_seize c) eqn:SZ; [|destruct (NS eq_refl X)]. match goal with |- context [if ?b then _ else _] => destruct b end; unfold due; cbn; rewrite ?SZ; reflexivity.
    + repeat match goal with |- context [if ?b then _ else _] => destruct b end; reflexivity.
Qed.
Print Assumptions C26_signal_of_stop.

(** What is a group-stop: a PTRACE_EVENT_STOP that shows one of the four signals that stop a process
    (SIGSTOP, SIGTSTP, SIGTTIN, SIGTTOU: 19 to 22); or, without an event, a stop of which the kernel has
    no siginfo.  By C26_restart_partial such a tracee is left stopped (PTRACE_LISTEN) if it was seized. *)
Theorem C26_group_stop c ign st siok msg : WIFSTOPPED st = true ->
  te (fst (classify c ign st siok msg)) = TE_GROUP_STOP <->
  (N.shiftr st 16 = 128 /\ 19 <= WSTOPSIG st <= 22) \/
  (N.shiftr st 16 = 0 /\ siok = false /\ WSTOPSIG st <> c_trapsig c /\ ~ (WSTOPSIG st = 19 /\ ign = true)).
Proof.
  intros W. unfold classify. unfold WIFSTOPPED in W. apply N.eqb_eq in W. assert (T : WTERMSIG st = 127).
  { unfold WTERMSIG. change 0x7f with (N.land 0xff 0x7f) at 1. rewrite N.land_assoc, W. reflexivity. }
  unfold WIFSIGNALED, WIFEXITED. rewrite T. cbn -[N.shiftr WSTOPSIG N.eqb]. change (127 + 1 <? 128) with false. change (127 =? 0) with false. cbv iota.
  unfold SIGSTOP, SIGTSTP, SIGTTIN, SIGTTOU. generalize (N.shiftr st 16) (WSTOPSIG st). intros ev sg.
  destruct (N.eqb_spec ev 0) as [Z|Z].
  - destruct (N.eqb_spec sg 19) as [Y|Y], ign; cbn [andb fst te]; try (split; [discriminate|intros [[? _]|(_ & _ & _ & ?)]; lia || tauto]);
    destruct (N.eqb_spec sg (c_trapsig c)) as [X|X]; cbn [fst te]; try (split; [discriminate|intros [[? _]|(_ & _ & ? & ?)]; lia || tauto]);
    destruct siok; cbn [fst te]; try (split; [discriminate|intros [[? _]|(_ & ? & _ & _)]; [lia|discriminate]]);
    (split; [intros _; right; repeat split; auto; intros [? ?]; congruence || lia|reflexivity]).
  - destruct (N.eqb_spec ev EV_STOP) as [X|X].
    + change EV_STOP with 128 in X. destruct (N.eqb_spec sg 19), (N.eqb_spec sg 20), (N.eqb_spec sg 21), (N.eqb_spec sg 22); cbn [orb fst te]; (split; [intros H; first [discriminate H|left; split; lia]|intros H; first [reflexivity|exfalso; lia]]).
    + change EV_STOP with 128 in X. split; [repeat match goal with |- context [if ?b then _ else _] => destruct b end; discriminate|]. intros [[? _]|[? _]]; lia.
Qed.
Print Assumptions C26_group_stop.
Example C26_group_stop_example : te (fst (classify (cx true) false (stopped 22 128) false 0)) = TE_GROUP_STOP /\ te (fst (classify (cx true) false (stopped 5 128) false 0)) = TE_RESTART /\ WIFSTOPPED (stopped 22 128) = true.
Proof. repeat split. Qed.

(** The stops that are events: before an exec is over (4), before the end of the process (6), for seccomp (7); see ptrace(2). *)
Theorem C26_event_stop c ign st siok msg : WIFSTOPPED st = true ->
  (te (fst (classify c ign st siok msg)) = TE_STOP_BEFORE_EXECVE <-> N.shiftr st 16 = 4) /\
  (te (fst (classify c ign st siok msg)) = TE_STOP_BEFORE_EXIT <-> N.shiftr st 16 = 6) /\
  (te (fst (classify c ign st siok msg)) = TE_SECCOMP <-> N.shiftr st 16 = 7).
Proof.
  intros W. unfold classify. unfold WIFSTOPPED in W. apply N.eqb_eq in W. assert (T : WTERMSIG st = 127).
  { unfold WTERMSIG. change 0x7f with (N.land 0xff 0x7f) at 1. rewrite N.land_assoc, W. reflexivity. }
  unfold WIFSIGNALED, WIFEXITED. rewrite T. cbn -[N.shiftr WSTOPSIG N.eqb]. change (127 + 1 <? 128) with false. change (127 =? 0) with false. cbv iota.
  generalize (N.shiftr st 16) (WSTOPSIG st). intros ev sg. clear. unfold EV_STOP, EV_EXEC, EV_EXIT, EV_SECCOMP.
  destruct (N.eqb_spec ev 0) as [->|Z].
  - repeat match goal with |- context [if ?b then _ else _] => destruct b end; cbn [fst te]; repeat split; discriminate || (intros; lia).
  - destruct (N.eqb_spec ev 128) as [->|X].
    + repeat match goal with |- context [if ?b then _ else _] => destruct b end; cbn [fst te]; repeat split; discriminate || (intros; lia).
    + destruct (N.eqb_spec ev 4) as [->|X4]; [cbn [fst te]; repeat split; discriminate || (intros; lia)|].
      destruct (N.eqb_spec ev 6) as [->|X6]; [cbn [fst te]; repeat split; discriminate || (intros; lia)|].
      destruct (N.eqb_spec ev 7) as [->|X7]; cbn [fst te]; repeat split; discriminate || (intros; congruence || lia).
Qed.
Print Assumptions C26_event_stop.
Example C26_event_example : WIFSTOPPED (stopped 5 7) = true /\ te (fst (classify (cx true) false (stopped 5 7) false 0)) = TE_SECCOMP /\ te (fst (classify (cx true) false (stopped 5 6) false 0)) = TE_STOP_BEFORE_EXIT.
Proof. repeat split. Qed.

(** One turn of the loop from any reached state: the tracee whose event is handled is asked once to go
    on with the signal it is due, or the one injected into its call; or it is left stopped, because
    strace is told to stop, or for a delay, or since its call could not be read.  A tracee that ended
    is asked nothing.
    Partial: a signal injected with a delay is lost, and so is one due when strace is interrupted (see the refuted theorems). *)
Theorem C26_restart_partial c ps cmd s wd e i b s' n s0 : reached c ps cmd s0 -> held s0 -> exec_alone c s0 (n, e) -> next_event c s0 n = Ok (Some wd, s) -> dispatch_event c s (Some wd) e = Ok (b, s') ->
  busy wd = true -> current (lg s) = Some i -> c_detexec c = false ->
  match te wd with
  | TE_EXITED | TE_SIGNALLED => reqs s' = reqs s
  | TE_SYSCALL_STOP | TE_SECCOMP => exists sig, (sig = 0 \/ sig = e_sig e) /\ (goes_on s i (P s i) false sig s' \/ (unread e /\ reqs s' = reqs s))
  | TE_STOP_BEFORE_EXECVE => exists j sig, (sig = 0 \/ sig = e_sig e) /\ (goes_on s j (P s i) false sig s' \/ (unread e /\ reqs s' = reqs s))
  | TE_GROUP_STOP => goes_on s i (P s i) (c_seize c) (due c wd) s'
  | _ => goes_on s i (P s i) false (due c wd) s'
  end.
Proof.
  intros (ch & po & li & ans & s1 & l & b1 & D & E0 & F & ET) HE EA NE E B CU DX. destruct (startup_core _ _ _ _ _ _ _ _ D E0) as [BL _]. destruct (turns_core _ _ _ _ _ (k_core _ BL) (k_kept _ BL) F ET) as [K KE].
  assert (T : turn c s0 (n, e) = Ok (b, s')) by (unfold turn; cbn [fst snd]; rewrite NE; exact E).
  destruct (turn_core _ _ _ _ _ K KE HE EA T) as (w & s2 & E1 & E2 & K1 & KE1 & _ & _ & _ & _ & _ & CUR). cbn [fst snd] in *. rewrite NE in E1. inversion E1; subst w s2. clear E1.
  destruct (CUR wd eq_refl B) as (i1 & C1 & Pi & _). rewrite CU in C1. inversion C1; subst i1.
  pose proof (dispatch_reqs _ _ _ _ _ _ _ (o_tab _ K1) E B CU Pi (fun _ => DX)) as R. unfold dies, reads, listens, due in *.
  destruct (te wd) eqn:TE; try exact R; try (unfold busy in B; rewrite TE in B; discriminate); destruct R as (j & sg & J & SG & R);
  try (rewrite J in *; destruct SG as [->|[X _]]; [|discriminate]; destruct R as [R|[X _]]; [exact R|discriminate]).
  - rewrite J in *. exists sg. split; [destruct SG as [?|[_ ?]]; auto|]. destruct R as [R|[_ R]]; auto.
  - exists j, sg. split; [destruct SG as [?|[_ ?]]; auto|]. destruct R as [R|[_ R]]; auto.
  - rewrite J in *. exists sg. split; [destruct SG as [?|[_ ?]]; auto|]. destruct R as [R|[_ R]]; auto.
Qed.
Print Assumptions C26_restart_partial.

(** A whole run, as long as strace is not told to stop and no signal is injected: each tracee was sent
    on with exactly the signals that it was stopped by, in their order.
    Partial: as above. *)
Theorem C26_run_partial c ch po li ps cmd ans s0 l b s : distinct_targets ps cmd ans -> startup c (st0 ch po li) ps cmd ans = Ok s0 -> fair c s0 l -> awake c s0 l -> c_detexec c = false ->
  (forall ne, In ne l -> e_sig (snd ne) = 0) -> turns c s0 l = Ok (b, s) -> intr s = 0 ->
  forall g, passed g (reqs s) = stopped_by c g (disp (qu s)).
Proof.
  intros D E0 F A DX ES E I0 g. destruct (startup_core _ _ _ _ _ _ _ _ D E0) as [B _]. destruct (fresh_start _ _ _ _ _ _ _ _ E0) as [FR _].
  apply (proj2 (turns_signals _ _ _ _ _ (k_core _ B) (k_kept _ B) F A DX ES E) I0). rewrite (fr_reqs _ FR), (proj1 (fr_disp _ FR)). reflexivity.
Qed.
Print Assumptions C26_run_partial.

(** beside: process 5 is stopped by signal 10, makes a call, is stopped by signal 12 *)
Fixpoint awake_check (c : cfg) (s : st) (l : list (nenv * denv)) : bool :=
  match l with
  | [] => true
  | ne :: r =>
      (match next_event c s (fst ne) with
       | Ok (Some wd, s1) => (due c wd =? 0) || match current (lg s1) with Some i => negb (fl s1 i DELAYED) | None => true end
       | _ => true
       end) && match turn c s ne with Ok (true, s') => awake_check c s' r | _ => true end
  end.
Lemma awake_ok c l : forall s, awake_check c s l = true -> awake c s l.
Proof.
  induction l as [|ne r IH]; intros s H; [exact I|]. cbn [awake_check] in H. apply andb_true_iff in H as [H1 H2]. cbn [awake]. split.
  - destruct (next_event c s (fst ne)) as [[[wd|] s1]| |]; try exact I. intros N i C. rewrite C in H1. apply orb_true_iff in H1 as [H1|H1]; [apply N.eqb_eq in H1; contradiction|]. apply negb_true_iff in H1. exact H1.
  - destruct (turn c s ne) as [[[] s']| |]; try exact I. apply IH. exact H2.
Qed.
Definition sigstop (p sig : N) : nwait := NPid p (stopped sig 0) true 0.
Definition run26 : list (nenv * denv) := map (fun w => tx [w] (bs "getpid")) [sigstop 5 10; sys 5; sys 5; sigstop 5 12].
Lemma start_started c p : good (startup c (st0 0 0 (-1)) [p] None (one p)) = true -> startup c (st0 0 0 (-1)) [p] None (one p) = Ok (started c p).
Proof. unfold started. destruct (startup _ _ _ _ _); [reflexivity|discriminate..]. Qed.
Lemma ran c p l : match turns c (started c p) l with Ok (b, _) => b | _ => false end = true -> turns c (started c p) l = Ok (true, ended c p l).
Proof. unfold ended. destruct (turns _ _ _) as [[b s]| |]; cbn; intros E; [rewrite E; reflexivity|discriminate..]. Qed.
Example C26_run_example : startup (cx true) (st0 0 0 (-1)) [5] None (one 5) = Ok (started (cx true) 5) /\ distinct_targets [5] None (one 5) /\ fair (cx true) (started (cx true) 5) run26 /\ awake (cx true) (started (cx true) 5) run26 /\ turns (cx true) (started (cx true) 5) run26 = Ok (true, ended (cx true) 5 run26) /\ intr (ended (cx true) 5 run26) = 0 /\ passed 1 (reqs (ended (cx true) 5 run26)) = [10; 12].
Proof.
  split; [apply start_started; vm_compute; reflexivity|]. split; [apply targets1; discriminate|]. split; [apply gentle_fair; vm_compute; reflexivity|]. split; [apply awake_ok; vm_compute; reflexivity|].
  split; [apply ran; vm_compute; reflexivity|]. split; vm_compute; reflexivity.
Qed.
(** the hypotheses of the theorem on one turn, at its first event *)
Example C26_restart_example : reached (cx true) [5] None (started (cx true) 5) /\ held (started (cx true) 5) /\ match next_event (cx true) (started (cx true) 5) (nx [sigstop 5 10]) with
  | Ok (Some wd, s) => te wd = TE_SIGNAL_DELIVERY_STOP /\ current (lg s) = Some 0%nat /\ good (dispatch_event (cx true) s (Some wd) (dx [])) = true
  | _ => False
  end.
Proof.
  split; [|split; [vm_compute; exact I|]].
  - exists 0, 0, (-1)%Z, (one 5), (started (cx true) 5), [], true. split; [apply targets1; discriminate|]. split; [apply start_started; vm_compute; reflexivity|]. split; [exact I|reflexivity].
  - assert (X : match next_event (cx true) (started (cx true) 5) (nx [sigstop 5 10]) with
      | Ok (Some wd, s) => (match te wd with TE_SIGNAL_DELIVERY_STOP => true | _ => false end) && (match current (lg s) with Some O => true | _ => false end) && good (dispatch_event (cx true) s (Some wd) (dx []))
      | _ => false end = true) by (vm_compute; reflexivity).
    destruct (next_event _ _ _) as [[[wd|] s]| |]; try discriminate. apply andb_true_iff in X as [X X3]. apply andb_true_iff in X as [X1 X2]. destruct (te wd); try discriminate. destruct (current (lg s)) as [[|]|]; try discriminate. auto.
Qed.

(** The claim in full does not hold.  If strace is told to stop while it handles a stop by signal 10,
    it detaches from the tracee without that signal, which is lost: in whatever way the tracees answer. *)
Definition set_e_intr (e : denv) (x : N) : denv :=
  {| e_scno := e_scno e; e_args := e_args e; e_name := e_name e; e_exec := e_exec e; e_traced := e_traced e; e_sig := e_sig e; e_delay := e_delay e; e_xdelay := e_xdelay e; e_text := e_text e; e_dec := e_dec e;
     x_res := x_res e; x_delay := x_delay e; x_err := x_err e; x_text := x_text e; x_ret := x_ret e; x_extra := x_extra e; e_sec := e_sec e; e_stopmsg := e_stopmsg e; e_err := e_err e; e_det := e_det e; e_waits := e_waits e; e_intr := x |}.
Definition run26i : list (nenv * denv) := [(nx [sigstop 5 10], set_e_intr (dx []) 2)].
Theorem C26_interrupted_refuted : exists c ps l s, reached c ps None s /\ (exists s0, startup c (st0 0 0 (-1)) ps None (one 5) = Ok s0 /\ fair c s0 l /\ awake c s0 l /\ turns c s0 l = Ok (false, s)) /\ stopped_by c 1 (disp (qu s)) = [10] /\ match cleanup c s false (fun _ => {| a_detach := 0; a_alive := 0; a_stop := 0 |}) [] with
  | Ok s2 => forallb (fun r => r_sig r =? 0) (reqs s2) = true /\ existsb (fun r => match r_op r with OP_DETACH => true | _ => false end) (reqs s2) = true
  | _ => False
  end.
Proof.
  exists (cx true), [5], run26i, (ended (cx true) 5 run26i). assert (E0 : startup (cx true) (st0 0 0 (-1)) [5] None (one 5) = Ok (started (cx true) 5)) by (apply start_started; vm_compute; reflexivity).
  assert (E1 : turns (cx true) (started (cx true) 5) run26i = Ok (false, ended (cx true) 5 run26i)).
  { unfold ended. assert (X : match turns (cx true) (started (cx true) 5) run26i with Ok (b, _) => negb b | _ => false end = true) by (vm_compute; reflexivity). destruct (turns _ _ _) as [[b s]| |]; cbn; [|discriminate..]. destruct b; [discriminate|reflexivity]. }
  assert (F : fair (cx true) (started (cx true) 5) run26i) by (apply gentle_fair; vm_compute; reflexivity).
  split; [exists 0, 0, (-1)%Z, (one 5), (started (cx true) 5), run26i, false; split; [apply targets1; discriminate|]; split; [exact E0|]; split; [exact F|exact E1]|]. split; [exists (started (cx true) 5); split; [exact E0|]; split; [exact F|]; split; [apply awake_ok; vm_compute; reflexivity|exact E1]|].
  split; [vm_compute; reflexivity|]. assert (X : match cleanup (cx true) (ended (cx true) 5 run26i) false (fun _ => {| a_detach := 0; a_alive := 0; a_stop := 0 |}) [] with
    | Ok s2 => forallb (fun r => r_sig r =? 0) (reqs s2) && existsb (fun r => match r_op r with OP_DETACH => true | _ => false end) (reqs s2) | _ => false end = true) by (vm_compute; reflexivity).
  destruct (cleanup _ _ _ _ _); [|discriminate..]. apply andb_true_iff in X. exact X.
Qed.
Print Assumptions C26_interrupted_refuted.
(** A signal that is injected together with delay_enter is lost: the tracee is sent on with none when
    the delay is over. *)
Definition inj (e : denv) (sig : N) (d : option (ts * ts * ts)) : denv :=
  {| e_scno := e_scno e; e_args := e_args e; e_name := e_name e; e_exec := e_exec e; e_traced := e_traced e; e_sig := sig; e_delay := d; e_xdelay := e_xdelay e; e_text := e_text e; e_dec := e_dec e;
     x_res := x_res e; x_delay := x_delay e; x_err := x_err e; x_text := x_text e; x_ret := x_ret e; x_extra := x_extra e; e_sec := e_sec e; e_stopmsg := e_stopmsg e; e_err := e_err e; e_det := e_det e; e_waits := e_waits e; e_intr := e_intr e |}.
Definition sec_ (n : Z) : ts := {| sec := n; nsec := 0 |}.
Definition run26d (d : option (ts * ts * ts)) : list (nenv * denv) :=
  [(nx [sys 5], inj (dx (bs "getpid")) 10 d);
   ({| n_intr := 0; n_timer := Some (sec_ 9, fun _ => dx []); n_waits := [NPid 0 0 false 0]; n_opterr := 0; n_gname := None |}, dx [])].
Theorem C26_injected_delayed_refuted : exists c s0, startup c (st0 0 0 (-1)) [5] None (one 5) = Ok s0 /\ fair c s0 (run26d None) /\ fair c s0 (run26d (Some (sec_ 3, sec_ 1, sec_ 1))) /\
  passed 1 (reqs (end_of (turns c s0 (run26d None)))) = [10] /\
  passed 1 (reqs (end_of (turns c s0 (run26d (Some (sec_ 3, sec_ 1, sec_ 1)))))) = [] /\
  length (reqs (end_of (turns c s0 (run26d (Some (sec_ 3, sec_ 1, sec_ 1)))))) = length (reqs (end_of (turns c s0 (run26d None)))).
Proof.
  exists (cx true), (started (cx true) 5). split; [apply start_started; vm_compute; reflexivity|]. split; [apply gentle_fair; vm_compute; reflexivity|]. split; [apply gentle_fair; vm_compute; reflexivity|]. split; [vm_compute; reflexivity|]. split; vm_compute; reflexivity.
Qed.
Print Assumptions C26_injected_delayed_refuted.

(** ** C29 *)
Lemma cleanup_exit c s ek as_ ws s' : cleanup c s ek as_ ws = Ok s' -> exitc s' = exitc s.
Proof.
  unfold cleanup. destruct ek; [intros E; inversion E; reflexivity|]. intros E. apply rbind_ok in E as ([n s1] & E1 & E).
  assert (DS : forall a i s0 w s2, detach_or_interrupt_or_stop c s0 i a = (w, s2) -> exitc s2 = exitc s0).
  { clear. intros a i s0 w s2. unfold detach_or_interrupt_or_stop. repeat match goal with |- context [if ?b then _ else _] => destruct b end; intros E; inversion E; reflexivity. }
  assert (X1 : exitc s1 = exitc s).
  { revert E1. generalize (seq 0 (length (pids (tb s)))) as is. generalize 0%nat as n0. clear -DS. intros n0 is. revert n0 s. induction is as [|i is IH]; intros n0 s E; cbn [cleanup_all] in E; [inversion E; reflexivity|]. destruct (P s i =? 0); [eapply IH; exact E|].
    destruct (detach_or_interrupt_or_stop c s i (as_ i)) as [w s2] eqn:D. pose proof (DS _ _ _ _ _ D) as X. destruct w; [rewrite <- X; eapply IH; exact E|]. apply rbind_ok in E as (s3 & E1 & E). apply IH in E. rewrite E, (as_exit _ _ (aside_drop _ _ _ _ E1)). exact X. }
  rewrite <- X1. clear X1 E1 DS. revert s1 n E. induction ws as [|w ws IH]; intros s1 n E; cbn [cleanup_wait] in E; [destruct n; inversion E; reflexivity|]. destruct n; [inversion E; reflexivity|]. destruct w as [[]|pid st err]; [eapply IH; exact E|inversion E; reflexivity|].
  destruct (pid =? popen s1); [apply IH in E; rewrite E; destruct (WIFSTOPPED st); reflexivity|]. destruct (pid2tcb (tb s1) (Z.of_N pid)) as [t [i|]]; [|apply IH in E; exact E].
  apply rbind_ok in E as ([done s2] & E1 & E). assert (X : exitc s2 = exitc s1).
  { unfold detach_interrupted_or_stopped in E1. destruct (negb _); [inversion E1; reflexivity|]. change (exitc s1) with (exitc (with_tb s1 t)). repeat match goal with H : context [if ?b then _ else _] |- _ => match b with c_seize c => destruct b | _ =? SIGSTOP => destruct b end end;
    apply rbind_ok in E1 as ([ok s3] & E2 & E1); apply restart_reqs in E2 as (A & _); inversion E1; subst; apply (as_exit _ _ A). }
  destruct done; [apply rbind_ok in E as (s3 & E3 & E); apply IH in E; rewrite E, (as_exit _ _ (aside_drop _ _ _ _ E3)); exact X|]. apply IH in E. congruence.
Qed.
Lemma fate_bound st x : fate st = Some x -> x < 256 \/ exists g, x = 256 + g /\ 0 < g /\ g < 128.
Proof.
  unfold fate. destruct (WIFSIGNALED st) eqn:W; intros E.
  - inversion E; subst x. right. exists (WTERMSIG st). split; [reflexivity|]. unfold WIFSIGNALED in W. cbv zeta in W. destruct (N.ltb_spec (WTERMSIG st + 1) 128); [|discriminate]. split; [|lia]. destruct (N.eq_dec (WTERMSIG st) 0) as [Z|Z]; [rewrite Z in W; discriminate|lia].
  - destruct (WIFEXITED st); [|discriminate]. inversion E. left. unfold WEXITSTATUS. change 0xff00 with (N.shiftl (N.ones 8) 8). rewrite N.shiftr_land, N.shiftr_shiftl_l by lia. cbn [N.sub]. change (N.shiftl (N.ones 8) (8 - 8)) with (N.ones 8). rewrite N.land_ones. apply N.mod_lt. lia.
Qed.
Lemma command_end_bound c p l : forall s x, command_end c p s l = Some x -> x < 256 \/ exists g, x = 256 + g /\ 0 < g /\ g < 128.
Proof.
  induction l as [|ne l IH]; intros s x E; cbn [command_end] in E; [discriminate|]. destruct (next_event c s (fst ne)) as [[[wd|] s1]| |]; try discriminate.
  destruct (match current (lg s1) with Some i => busy wd && (P s1 i =? p) | None => false end); [destruct (fate (wstatus wd)) eqn:FT; [inversion E; subst; eapply fate_bound; exact FT|]|]; (destruct (turn c s ne) as [[[] s2]| |]; try discriminate; eapply IH; exact E).
Qed.
Lemma code_bits g : g < 128 -> N.land (256 + g) 0xff = g.
Proof. intros L. change 0xff with (N.ones 8). rewrite N.land_ones. rewrite N.add_comm. change 256 with (1 * 2^8). rewrite N.mod_add by lia. apply N.mod_small. change (2^8) with 256. lia. Qed.
(** The command was started as process p, in whatever order it and the other tracees end, and however
    many events there are: strace ends by itself as the command did, with its exit code, or by its
    signal; with 128 plus the signal if that does not kill strace.  It exits with 0 if the command
    had not ended.  Asking a tracee to go on must not have failed, but for a tracee that is gone.
    Partial: the exit code is overwritten when a restart fails (C29_failure_refuted). *)
Theorem C29_exit_partial c ch po li ps p sec ans s0 l b s ek as_ ws s2 fatal : distinct_targets ps (Some (p, sec)) ans -> startup c (st0 ch po li) ps (Some (p, sec)) ans = Ok s0 -> fair c s0 l -> c_detexec c = false ->
  (forall ne, In ne l -> no_failure ne) -> turns c s0 l = Ok (b, s) -> cleanup c s ek as_ ws = Ok s2 ->
  terminate s2 0 fatal =
  match command_end c p s0 l with
  | Some x => match ended_by x with Exits n => Exits n | KilledBy g => if fatal g then KilledBy g else Exits (128 + g) end
  | None => Exits 0
  end.
Proof.
  intros D E0 F DX NF E CE. destruct (startup_core _ _ _ _ _ _ _ _ D E0) as [B _]. destruct (fresh_start _ _ _ _ _ _ _ _ E0) as [FR CH]. destruct (d_cmd _ _ _ D p sec eq_refl) as [PZ _].
  assert (X : exitc s2 = match command_end c p s0 l with Some y => y | None => 0 end).
  { rewrite (cleanup_exit _ _ _ _ _ _ CE). apply (turns_code c p l PZ s0 b s None (k_core _ B) (k_kept _ B) F DX); [unfold all_classified; rewrite (proj2 (fr_disp _ FR)); constructor|exact NF| |exact E]. unfold code_ok. rewrite (fr_exit _ FR), CH. auto. }
  unfold terminate. cbv zeta. change (0 =? 0) with true. cbv iota. rewrite X. destruct (command_end c p s0 l) as [x|] eqn:CC; [|reflexivity]. unfold ended_by. destruct (command_end_bound _ _ _ _ _ CC) as [L|(g & -> & G1 & G2)].
  - rewrite (proj2 (N.ltb_lt _ _) L). destruct (N.ltb_spec 0xff x); [lia|]. f_equal. change 0xff with (N.ones 8). rewrite N.land_ones. apply N.mod_small. exact L.
  - destruct (N.ltb_spec 0xff (256 + g)); [|lia]. destruct (N.ltb_spec (256 + g) 256); [lia|]. rewrite code_bits by exact G2. replace (256 + g - 256) with g by lia. destruct (fatal g); [reflexivity|]. f_equal. change 0xff with (N.ones 8). rewrite N.land_ones, N.mod_small; [lia|]. change (2^8) with 256. lia.
Qed.
Print Assumptions C29_exit_partial.

(** beside: the command is killed by signal 15 after a thread of it exits with 3; another one exits with 7 *)
Definition died (p sig : N) : nwait := NPid p sig false 0.
Definition exited (p code : N) : nwait := NPid p (N.shiftl code 8) false 0.
Definition cstart (p : N) : st := start_of (startup (cx true) (st0 0 0 (-1)) [] (Some (p, false)) (one p)).
Definition cend (p : N) (l : list (nenv * denv)) : st := end_of (turns (cx true) (cstart p) l).
Definition run29 : list (nenv * denv) := map (fun w => tx [w] (bs "x")) [sys 5; sys 5; new 6; exited 6 3; died 5 15].
Definition run29b : list (nenv * denv) := map (fun w => tx [w] (bs "x")) [sys 5; new 6; exited 5 7; exited 6 3].
Lemma command1 p : p <> 0 -> distinct_targets [] (Some (p, false)) (one p).
Proof. intros N. split; cbn; [constructor|intros []|intros q b H; inversion H; subst; split; [exact N|intros []]|intros; constructor|intros ? ? []|intros ? ? ? []]. Qed.
Example C29_exit_example : startup (cx true) (st0 0 0 (-1)) [] (Some (5, false)) (one 5) = Ok (cstart 5) /\ distinct_targets [] (Some (5, false)) (one 5) /\ (forall l, In l [run29; run29b] -> fair (cx true) (cstart 5) l /\ (forall ne, In ne l -> no_failure ne) /\ turns (cx true) (cstart 5) l = Ok (true, cend 5 l)) /\ command_end (cx true) 5 (cstart 5) run29 = Some (256 + 15) /\ command_end (cx true) 5 (cstart 5) run29b = Some 7 /\ terminate (cend 5 run29) 0 (fun _ => true) = KilledBy 15 /\ terminate (cend 5 run29b) 0 (fun _ => true) = Exits 7.
Proof.
  split; [unfold cstart; assert (X : good (startup (cx true) (st0 0 0 (-1)) [] (Some (5, false)) (one 5)) = true) by (vm_compute; reflexivity); destruct (startup _ _ _ _ _); [reflexivity|discriminate..]|].
  split; [apply command1; discriminate|]. split; [|repeat split; vm_compute; reflexivity].
  assert (R : forall l, match turns (cx true) (cstart 5) l with Ok (b, _) => b | _ => false end = true -> turns (cx true) (cstart 5) l = Ok (true, cend 5 l)) by (intros l; unfold cend; destruct (turns _ _ _) as [[b s]| |]; cbn; intros E; [rewrite E; reflexivity|discriminate..]).
  intros l [<-|[<-|[]]]; (split; [apply gentle_fair; vm_compute; reflexivity|]; split; [|apply R; vm_compute; reflexivity]; intros ne H; unfold run29, run29b in H; cbn [map In] in H; repeat destruct H as [<-|H]; try contradiction; (split; [left; reflexivity|exact I])).
Qed.
(** Without that hypothesis the claim fails: after the command has exited with 7, a request to another
    tracee fails, and strace exits with 1. *)
Definition set_e_err (e : denv) (x : N) : denv :=
  {| e_scno := e_scno e; e_args := e_args e; e_name := e_name e; e_exec := e_exec e; e_traced := e_traced e; e_sig := e_sig e; e_delay := e_delay e; e_xdelay := e_xdelay e; e_text := e_text e; e_dec := e_dec e;
     x_res := x_res e; x_delay := x_delay e; x_err := x_err e; x_text := x_text e; x_ret := x_ret e; x_extra := x_extra e; e_sec := e_sec e; e_stopmsg := e_stopmsg e; e_err := x; e_det := e_det e; e_waits := e_waits e; e_intr := e_intr e |}.
Definition run29f : list (nenv * denv) := map (fun w => tx [w] (bs "x")) [sys 5; new 6; exited 5 7] ++ [(nx [sys 6], set_e_err (dx (bs "x")) 5)].
Theorem C29_failure_refuted : exists c s0 l, startup c (st0 0 0 (-1)) [] (Some (5, false)) (one 5) = Ok s0 /\ fair c s0 l /\ c_detexec c = false /\ good (turns c s0 l) = true /\ command_end c 5 s0 l = Some 7 /\ terminate (end_of (turns c s0 l)) 0 (fun _ => true) = Exits 1.
Proof.
  exists (cx true), (cstart 5), run29f. split; [apply C29_exit_example|]. split; [apply gentle_fair; vm_compute; reflexivity|]. repeat split; vm_compute; reflexivity.
Qed.
Print Assumptions C29_failure_refuted.
