(** The event loop: C21, C22, C23, C24, C25, C27. *)
From Verif Require Import Base TimeModel WaitModel TcbModel TcbSpec TcbProofs LogModel LogSpec LogProofs LoopModel LoopSpec LoopFrame LoopInv LoopTurn LoopRun LoopEnds LoopCore LoopQueue LoopReach LoopEx.
Local Open Scope N_scope.

Lemma reached_core c ps cmd s : reached c ps cmd s -> core s /\ kept s.
Proof.
  intros (ch & po & li & ans & s0 & l & b & D & E0 & F & E). destruct (startup_core _ _ _ _ _ _ _ _ D E0) as [B _]. eapply turns_core; [exact (k_core _ B)|exact (k_kept _ B)|exact F|exact E].
Qed.

(** ** C21, C22: the table *)
Lemma allowed_absent t p : p <> 0 -> absent t p -> forall i, pidof t i <> p.
Proof. intros N A i E. apply A. rewrite <- E. apply nth_In. destruct (Nat.lt_ge_cases i (length (pids t))) as [L|L]; [exact L|]. unfold pidof in E. rewrite nth_overflow in E by exact L. congruence. Qed.
Lemma history_tinv t : history t -> tinv t.
Proof.
  induction 1 as [|t o t' H IH A E]; [apply tinv0|]. destruct o as [p|i|p|i p]; cbn in E, A.
  - destruct A as [N A]. pose proof (alloctcb_ok t p IH N (allowed_absent _ _ N A)) as X. destruct (alloctcb t p) as [[t1 i]| |]; cbn in E; try discriminate. inversion E; subst. apply X.
  - inversion E; subst. apply drop_slot_ok. exact IH.
  - inversion E; subst. apply pid2tcb_inv. exact IH.
  - inversion E; subst. destruct A as (N & A & L). apply rename_ok; auto. apply allowed_absent; assumption.
Qed.
Lemma scan_spec t p i : tinv t -> (scan t p = Some i <-> (0 < p)%Z /\ pidof t i = Z.to_N p).
Proof.
  intros T. unfold scan. destruct (Z.leb_spec p 0); [split; [discriminate|lia]|]. split.
  - intros F. split; [lia|]. apply find_pid_some in F as [_ F]. exact F.
  - intros [_ E]. destruct (find_pid (pids t) (Z.to_N p)) as [j|] eqn:F.
    + apply find_pid_some in F as [_ F]. f_equal. apply (t_distinct _ T); unfold pidof in *; [lia|congruence].
    + exfalso. apply (find_pid_none _ _ F i); [apply pidof_lt; unfold pidof in *; lia|exact E].
Qed.
Lemma lookup_scan t p : tinv t -> snd (pid2tcb t p) = scan t p.
Proof.
  intros T. destruct (scan t p) as [i|] eqn:S.
  - apply pid2tcb_spec; [exact T|]. apply scan_spec; assumption.
  - destruct (snd (pid2tcb t p)) as [i|] eqn:E; [|reflexivity]. apply pid2tcb_spec in E; [|exact T]. apply scan_spec in E; [|exact T]. congruence.
Qed.
(** The cache changes nothing, whatever was allocated, dropped, renamed and looked up before ... *)
Theorem C22_cache_transparent t p : history t -> snd (pid2tcb t p) = scan t p.
Proof. intros H. apply lookup_scan, history_tinv, H. Qed.
Print Assumptions C22_cache_transparent.
(** ... and in every state of the event loop *)
Theorem C22_cache_transparent_loop c ps cmd s p : reached c ps cmd s -> snd (pid2tcb (tb s) p) = scan (tb s) p.
Proof. intros R. apply lookup_scan, o_tab. apply (reached_core _ _ _ _ R). Qed.
Print Assumptions C22_cache_transparent_loop.
(** a table where the cache has stale entries: 5 was looked up and dropped, 1029 shares its place *)
Example C22_stale : exists t, history t /\ cache t 5 = Some 0%nat /\ pidof t 0 = 1029 /\ snd (pid2tcb t 5) = None /\ snd (pid2tcb t 1029) = Some 0%nat /\ snd (pid2tcb t 7) = Some 1%nat.
Proof.
  set (t1 := match alloctcb tab0 5 with Ok r => fst r | _ => tab0 end). set (t2 := match alloctcb t1 7 with Ok r => fst r | _ => tab0 end).
  set (t3 := fst (pid2tcb t2 5)). set (t4 := drop_slot t3 0). set (t5 := match alloctcb t4 1029 with Ok r => fst r | _ => tab0 end). exists t5.
  assert (H1 : history t1) by (apply (h_op tab0 (Alloc 5)); [constructor|split; [lia|intros []]|reflexivity]).
  assert (H2 : history t2) by (apply (h_op t1 (Alloc 7)); [exact H1|split; [lia|vm_compute; intuition discriminate]|reflexivity]).
  assert (H3 : history t3) by (apply (h_op t2 (Lookup 5)); [exact H2|exact I|reflexivity]).
  assert (H4 : history t4) by (apply (h_op t3 (Drop 0)); [exact H3|exact I|reflexivity]).
  assert (H5 : history t5) by (apply (h_op t4 (Alloc 1029)); [exact H4|split; [lia|vm_compute; intuition discriminate]|reflexivity]).
  split; [exact H5|]. repeat split; reflexivity.
Qed.

(** The table has one entry per process, the counter is right and exactly the traced processes are found ... *)
Definition sound (s : st) : Prop :=
  (forall i j, P s i <> 0 -> P s i = P s j -> i = j) /\ nprocs (tb s) = N.of_nat (length (filter (fun p => negb (p =? 0)) (pids (tb s)))) /\
  (forall p, (exists i, snd (pid2tcb (tb s) (Z.of_N p)) = Some i) <-> traced s p).
Lemma tinv_sound s : tinv (tb s) -> sound s.
Proof.
  intros T. split; [exact (t_distinct _ T)|]. split; [exact (t_count _ T)|]. intros p. split.
  - intros (i & E). apply pid2tcb_spec in E as [A B]; [|exact T]. rewrite N2Z.id in B. split; [lia|]. exists i. exact B.
  - intros (A & i & B). exists i. apply pid2tcb_spec; [exact T|]. rewrite N2Z.id. split; [lia|exact B].
Qed.
Theorem C21_table c ps cmd s : reached c ps cmd s -> sound s.
Proof. intros R. apply tinv_sound, o_tab. apply (reached_core _ _ _ _ R). Qed.
Print Assumptions C21_table.
(** ... where at the start the processes asked for are traced, ... *)
Theorem C21_start c ch po li ps cmd ans s : distinct_targets ps cmd ans -> startup c (st0 ch po li) ps cmd ans = Ok s ->
  sound s /\ forall p, traced s p <-> targets ps cmd ans p.
Proof. intros D E. destruct (startup_core _ _ _ _ _ _ _ _ D E) as [B T]. split; [apply tinv_sound, o_tab, (k_core _ B)|exact T]. Qed.
Print Assumptions C21_start.
(** ... then each turn adds the new processes that [wait4] told of, if any, and handles an event:
    a process that ended is dropped; so is, on execve, the thread that takes over the id of its leader *)
Theorem C21_turn c ps cmd s ne b s' : reached c ps cmd s -> held s -> exec_alone c s ne -> turn c s ne = Ok (b, s') ->
  exists w s1, next_event c s (fst ne) = Ok (w, s1) /\ sound s1 /\ sound s' /\
  (exists hs, (forall p, traced s1 p <-> traced s p \/ In p (map fst hs)) /\ (hs = [] \/ heard (c_follow c) (popen s) (traced s) [] (answers (n_waits (fst ne))) hs)) /\
  match w with
  | Some wd => if busy wd then exists i, current (lg s1) = Some i /\ P s1 i <> 0 /\ change c s1 i wd s' else s' = s1
  | None => s' = s1
  end.
Proof.
  intros R H A E. destruct (reached_core _ _ _ _ R) as [K KE]. destruct (turn_core _ _ _ _ _ K KE H A E) as (w & s1 & E1 & E2 & K1 & _ & N1 & K2 & _ & Q2 & C2 & B2).
  exists w, s1. split; [exact E1|]. split; [apply tinv_sound, o_tab, K1|]. split; [apply tinv_sound, o_tab, K2|]. split.
  - unfold next_ok in N1. destruct (queued s) as [|x0 r0].
    + destruct N1 as (_ & new & hs & _ & HH & _ & T & _). exists hs. split; [exact T|tauto].
    + exists []. split; [|auto]. intros p. cbn. destruct (running s (fst ne)).
      * destruct N1 as (i & wd & _ & _ & _ & _ & _ & _ & _ & T & _). rewrite (traced_tb _ _ T). tauto.
      * destruct N1 as (_ & _ & T). rewrite (traced_tb _ _ T). tauto.
  - destruct w as [wd|]; [|inversion E2; reflexivity]. destruct (busy wd) eqn:BW; [|unfold busy in BW; cbn in E2; destruct (te wd); try discriminate; inversion E2; reflexivity].
    destruct (B2 wd eq_refl BW) as (i & X1 & X2 & X3). exists i. split; [exact X1|]. split; [exact X2|]. apply C2; auto.
Qed.
Print Assumptions C21_turn.
(** When the first stop of a tracee is taken up, strace asks for the ptrace options unless they were given
    with PTRACE_SEIZE.  Only if that fails, and not because the tracee is gone (ESRCH, 3), strace gives up;
    otherwise the tracee is no new one any more. *)
Theorem C21_first_stop c s i e g : fl s i STARTUP = true ->
  (event_exit c s i e g = Die <-> c_seize c = false /\ e <> 0 /\ e <> 3) /\
  (forall w s', event_exit c s i e g = Ok (w, s') -> fl s' i STARTUP = false).
Proof.
  intros F. unfold event_exit. rewrite F. unfold startup_tcb. cbv zeta. change ESRCH with 3.
  assert (K : forall d s1, fl (if d : bool then with_name (setf s i STARTUP false) i s1 else setf s i STARTUP false) i STARTUP = false).
  { intros d s1. destruct d; cbn; unfold upd; rewrite ?Nat.eqb_refl; reflexivity. }
  destruct (c_seize c); [|destruct (N.eqb_spec e 0), (N.eqb_spec e 3)]; cbn [negb andb rbind]; (split; [split|]).
  all: try discriminate.
  all: try (intros (? & ? & ?); congruence).
  all: try (intros _; repeat split; assumption).
  all: intros w s' E; injection E as _ <-; apply K.
Qed.
Print Assumptions C21_first_stop.

(** ... and at the end processes are only dropped *)
Theorem C21_cleanup c ps cmd s ek as_ ws s' : reached c ps cmd s -> cleanup c s ek as_ ws = Ok s' -> sound s' /\ forall p, traced s' p -> traced s p.
Proof. intros R E. destruct (cleanup_core _ _ _ _ _ _ (proj1 (reached_core _ _ _ _ R)) E) as (K & T & _). split; [apply tinv_sound, o_tab, K|exact T]. Qed.
Print Assumptions C21_cleanup.

(** ** C25 *)
(** The decoder is called alternately for entering and exiting, for each tracee ... *)
Theorem C25_alternate c ps cmd s g : reached c ps cmd s -> alternate true (of g (calls s)).
Proof. intros R. apply o_alt. apply (reached_core _ _ _ _ R). Qed.
Print Assumptions C25_alternate.
Lemma drop_calls c s i s' : droptcb c s i = Ok s' -> calls s' = calls s /\ forall k, k <> i -> fl s' k INSYSCALL = fl s k INSYSCALL.
Proof.
  unfold droptcb. destruct (P s i =? 0); intros E; [inv_ok E; auto|]. apply rbind_ok in E as (s1 & E1 & E). inv_ok E. assert (L : logonly s s1) by (eapply pr_only; [|exact E1]; intros l l'; apply drop_gk). destruct L as [_ ->].
  split; [reflexivity|]. intros k Hk. cbn. apply Nat.eqb_neq in Hk. rewrite Hk. reflexivity.
Qed.
(** ... in particular a stop that is not a syscall stop, nor one reported by seccomp or for an execve,
    changes nothing about whether the tracee is in a call *)
Theorem C25_other_stops c s wd e b s' : dispatch_event c s (Some wd) e = Ok (b, s') ->
  te wd <> TE_SYSCALL_STOP -> te wd <> TE_SECCOMP -> te wd <> TE_STOP_BEFORE_EXECVE ->
  calls s' = calls s /\ forall k, P s' k <> 0 -> fl s' k INSYSCALL = fl s k INSYSCALL.
Proof.
  intros E N1 N2 N3. unfold dispatch_event in E.
  assert (M : forall s1, mild s s1 -> calls s1 = calls s /\ forall k, fl s1 k INSYSCALL = fl s k INSYSCALL) by (intros s1 M; split; apply M).
  assert (DR : forall i s1, mild s s1 -> droptcb c s1 i = Ok s' -> calls s' = calls s /\ forall k, P s' k <> 0 -> fl s' k INSYSCALL = fl s k INSYSCALL).
  { intros i s1 M1 E1. destruct (M _ M1) as [A B]. destruct (drop_calls _ _ _ _ E1) as [C D]. split; [congruence|]. intros k Hk. rewrite <- B. apply D. intros ->. apply Hk.
    unfold droptcb in E1. destruct (N.eqb_spec (P s1 i) 0) as [Z|Z]; [inv_ok E1; exact Z|]. apply rbind_ok in E1 as (s2 & E1 & E2). inv_ok E2. unfold P. cbn. unfold drop_slot.
    assert (L : logonly s1 s2) by (eapply pr_only; [|exact E1]; intros l l'; apply drop_gk). destruct L as [_ ->]. cbn. unfold P in Z. apply N.eqb_neq in Z as Z'. rewrite Z'. unfold pidof at 1. cbn. rewrite nth_set, Nat.eqb_refl by (apply pidof_lt; exact Z). reflexivity. }
  destruct (te wd) eqn:TE; try congruence; try (inv_ok E; auto; fail); destruct (current (lg s)) as [i|]; try discriminate.
  - destruct (M s') as [A B]; [eapply resume_mild; exact E|auto].
  - apply rbind_ok in E as (s1 & E1 & E). destruct (M s') as [A B]; [eapply mild_trans; [eapply stopped_mild; exact E1|eapply resume_mild; exact E]|auto].
  - apply rbind_ok in E as (s1 & E1 & E). apply rbind_ok in E as (s2 & E2 & E). inv_ok E. apply signalled_mild in E1. eapply DR; eassumption.
  - apply rbind_ok in E as (s1 & E1 & E). destruct (M s') as [A B]; [eapply mild_trans; [eapply stopped_mild; exact E1|]; destruct (c_seize c); eapply resume_mild; exact E|auto].
  - apply rbind_ok in E as (s1 & E1 & E). apply rbind_ok in E as (s2 & E2 & E). inv_ok E. apply exited_mild in E1. eapply DR; eassumption.
  - apply rbind_ok in E as (s1 & E1 & E). destruct (M s') as [A B]; [eapply mild_trans; [eapply exit_event_mild; exact E1|eapply resume_mild; exact E]|auto].
Qed.
Print Assumptions C25_other_stops.
(** a syscall stop makes at most one call of the decoder, for entering or exiting as is due *)
Theorem C25_syscall_stop c ps cmd s i rec e r sg s' : reached c ps cmd s -> P s i <> 0 -> trace_syscall c s i rec e = Ok (r, sg, s') ->
  let entered := negb (Nat.even (length (of (gen (lg s) i) (calls s)))) in
  calls s' = calls s ++ [(gen (lg s) i, negb entered)] \/ (calls s' = calls s /\ entered = false).
Proof.
  intros R Pi E. cbv zeta. rewrite <- (o_in _ (proj1 (reached_core _ _ _ _ R)) i Pi). pose proof (tr_calls _ _ _ _ _ _ (trace_syscall_frame _ _ _ _ _ _ _ _ E)) as C. destruct (fl s i INSYSCALL); cbn; [left; apply C|].
  destruct C as [[(C & _)|(C & _)]|[C _]]; auto.
Qed.
Print Assumptions C25_syscall_stop.

(** ** C27 *)
(** Every status collected was dispatched or waits in the queue, in the order collected ...
    Partial: the tracee of the extra event is not dropped before it is handled (see the refuted theorems). *)
Theorem C27_nothing_lost_partial c ps cmd s : reached c ps cmd s -> coll (qu s) = disp (qu s) ++ queued s.
Proof. intros R. apply (reached_core _ _ _ _ R). Qed.
Print Assumptions C27_nothing_lost_partial.
(** ... the first event of the queue is the one handled in the turn, as that of its tracee ...
    Partial: as above. *)
Theorem C27_next_partial c ps cmd s n w s' x r : reached c ps cmd s -> held s -> next_event c s n = Ok (w, s') -> running s n = true -> queued s = x :: r ->
  exists i, w = Some (snd x) /\ current (lg s') = Some i /\ P s' i <> 0 /\ gen (lg s') i = fst x /\ queued s' = r /\ disp (qu s') = disp (qu s) ++ [x] /\ coll (qu s') = coll (qu s).
Proof.
  intros R H E RU Q. destruct (reached_core _ _ _ _ R) as [K KE]. destruct (next_event_core _ _ _ _ _ K KE H E) as (_ & _ & N & _). unfold next_ok in N. rewrite Q, RU in N.
  destruct N as (i & wd & A1 & A2 & A3 & _ & A5 & A6 & A7 & _). rewrite Q in A5. injection A5 as -> <-. exists i. auto 10.
Qed.
Print Assumptions C27_next_partial.
(** ... only when there is none [wait4] is asked; then the statuses of tracees are collected in order,
    each as an event of its tracee, and the first is handled
    Partial: as above. *)
Theorem C27_collect_partial c ps cmd s n w s' : reached c ps cmd s -> held s -> next_event c s n = Ok (w, s') -> queued s = [] ->
  exists new hs, coll (qu s') = coll (qu s) ++ new /\ ((hs = [] /\ w = None) \/ heard (c_follow c) (popen s) (traced s) [] (answers (n_waits n)) hs) /\ Forall2 (matches s') new hs /\
  match new with [] => disp (qu s') = disp (qu s) | x :: _ => w = Some (snd x) /\ disp (qu s') = disp (qu s) ++ [x] end.
Proof.
  intros R H E Q. destruct (reached_core _ _ _ _ R) as [K KE]. destruct (next_event_core _ _ _ _ _ K KE H E) as (_ & _ & N & _). unfold next_ok in N. rewrite Q in N.
  destruct N as (_ & new & hs & A1 & A2 & A3 & _ & A4). exists new, hs. split; [exact A1|]. split; [exact A2|]. split; [exact A3|].
  destruct A4 as [[-> A4]|(x & A4 & A5 & A6)]; [exact A4|]. destruct new; [discriminate|]. injection A4 as ->. auto.
Qed.
Print Assumptions C27_collect_partial.

(** ** The hypotheses hold of real runs *)
(** -p 5 -f: 5 enters read; 6 appears; 6 enters write; the exits of read and write come together *)
Definition run1 : list (nenv * denv) := [tx [sys 5] (bs "read"); tx [new 6] []; tx [sys 6] (bs "write"); tx [sys 5; sys 6] []; tx [] []].
Example C21_C25_C27_reached : let s := ended (cx true) 5 run1 in reached (cx true) [5] None s /\ traced s 5 /\ traced s 6 /\
  of 1 (calls s) = [true; false] /\ of 2 (calls s) = [true; false] /\ map (fun x => te (snd x)) (coll (qu s)) = [TE_SYSCALL_STOP; TE_RESTART; TE_SYSCALL_STOP; TE_SYSCALL_STOP; TE_SYSCALL_STOP].
Proof.
  cbv zeta. split; [apply reached_run; [lia|vm_compute; reflexivity]|]. split; [split; [lia|exists 0%nat; vm_compute; reflexivity]|]. split; [split; [lia|exists 1%nat; vm_compute; reflexivity]|].
  split; [vm_compute; reflexivity|]. split; vm_compute; reflexivity.
Qed.
(** in the fourth turn an event is left in the queue; the next turn handles it *)
Example C27_queued : let s := ended (cx true) 5 (firstn 4 run1) in reached (cx true) [5] None s /\ held s /\ running s (nx []) = true /\
  map fst (queued s) = [2%nat] /\ good (next_event (cx true) s (nx [])) = true.
Proof. cbv zeta. split; [apply reached_run; [lia|vm_compute; reflexivity]|]. split; [exact I|]. repeat split; vm_compute; reflexivity. Qed.

(** ** C27 when a tracee of the queue is dropped *)
(** [held] is needed: extra_tcp is not cleared when its tracee is dropped.  Leader 5 and thread 6,
    which calls execve; then 5 is killed.  Both statuses of 5 come in one batch.  Handling the first
    drops the entry of the old leader, that of thread 6 is 5 from now on; the second is then handled
    as that of the dropped entry, which has no output file: a null pointer is used ... *)
Definition run2 : list (nenv * denv) := [tx [new 6] []; tx [sys 6] (bs "execve"); tx [execed 5 6; NPid 5 9 false 0] []; tx [] []].
Theorem C27_extra_event_crash_refuted : exists s, turns (cx true) (started (cx true) 5) (firstn 3 run2) = Ok (true, s) /\ turn (cx true) s (tx [] []) = Undef.
Proof.
  set (r := turns (cx true) (started (cx true) 5) (firstn 3 run2)). exists (end_of r). split; [|vm_compute; reflexivity].
  assert (B : match r with Ok (b, _) => b | _ => false end = true) by (vm_compute; reflexivity). unfold end_of. destruct r as [[[] s1]| |]; try discriminate B; reflexivity.
Qed.
Print Assumptions C27_extra_event_crash_refuted.
(** ... or, when signals are not shown, 5 stays in the table although its end was collected and
    handled, and the next wait4 makes strace die. *)
Theorem C27_extra_event_lost_refuted : let c := cfgx true false in exists s wd, turns c (started c 5) run2 = Ok (true, s) /\
  In wd (map snd (disp (qu s))) /\ te wd = TE_SIGNALLED /\ queued s = [] /\ traced s 5 /\ ~ traced s 6 /\ turn c s (tx [NErr ECHILD] []) = Die.
Proof.
  cbv zeta. set (c := cfgx true false). set (r := turns c (started c 5) run2). set (s := end_of r).
  assert (E : r = Ok (true, s)).
  { assert (B : match r with Ok (b, _) => b | _ => false end = true) by (vm_compute; reflexivity). unfold s, end_of. destruct r as [[[] s1]| |]; try discriminate B; reflexivity. }
  exists s, {| te := TE_SIGNALLED; wstatus := 9; wmsg := 0 |}. split; [exact E|].
  assert (D : nth_error (map snd (disp (qu s))) 3 = Some {| te := TE_SIGNALLED; wstatus := 9; wmsg := 0 |}) by (vm_compute; reflexivity). split; [eapply nth_error_In; exact D|].
  split; [reflexivity|]. split; [vm_compute; reflexivity|]. split; [split; [lia|exists 1%nat; vm_compute; reflexivity]|]. split.
  - intros [_ [i X]]. assert (B : existsb (N.eqb 6) (pids (tb s)) = false) by (vm_compute; reflexivity). rewrite <- not_true_iff_false in B. apply B. apply existsb_exists. exists 6. split; [|reflexivity].
    unfold P, pidof in X. rewrite <- X. apply nth_In. destruct (Nat.lt_ge_cases i (length (pids (tb s)))) as [L|L]; [exact L|]. rewrite nth_overflow in X by exact L. discriminate.
  - vm_compute. reflexivity.
Qed.
Print Assumptions C27_extra_event_lost_refuted.

Definition no_seize : cfg := {| lc := lx true; c_stats := false; c_seize := false; c_follow := true; c_detexec := false; c_qexit := false; c_qthread := false; c_sigs := fun _ => true; c_secbefore := true; c_os3 := true; c_trapsig := 133; c_signame := fun _ => bs "SIG" |}.
Example C21_first_stop_example : fl (started no_seize 5) 0 STARTUP = true /\ event_exit no_seize (started no_seize 5) 0 1 None = Die.
Proof. split; reflexivity. Qed.
