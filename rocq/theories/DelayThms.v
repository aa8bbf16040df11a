(** Delays: C31. *)
From Verif Require Import Base TimeModel TimeSpec TimeProofs WaitModel TcbModel TcbProofs LogModel LoopModel LoopSpec LoopFrame LoopCore LoopReach LoopReq LoopDelay LoopSig LoopEx LoopThms SigThms DelaySpec LoopClock DelayProofs.
Local Open Scope N_scope.

(** A delay that is asked for happens: at the stop at a call that could be read and is traced, the
    tracee is put aside until the time read from the clock plus the length of the delay, and is not
    asked to go on. *)
Theorem C31_delay c ps cmd s0 n s wd e b s' i diff now now' : reached c ps cmd s0 -> held s0 -> exec_alone c s0 (n, e) -> next_event c s0 n = Ok (Some wd, s) -> dispatch_event c s (Some wd) e = Ok (b, s') ->
  te wd = TE_SYSCALL_STOP -> current (lg s) = Some i -> delayed_call s i e -> asked s i e = Some (diff, now, now') -> normal now -> normal diff ->
  exists x, put_aside s' i (gen (lg s) i) x /\ ns x = (ns now + ns diff)%Z /\ normal x /\ restarts (gen (lg s) i) (reqs s') = restarts (gen (lg s) i) (reqs s).
Proof.
  intros R H A E1 E2 TE CU DC AK N1 N2. destruct (reached_core _ _ _ _ R) as [K KE]. assert (ET : turn c s0 (n, e) = Ok (b, s')) by (unfold turn; cbn [fst snd]; rewrite E1; exact E2).
  destruct (turn_core _ _ _ _ _ K KE H A ET) as (w & s1 & F1 & _ & K1 & _ & _ & _ & _ & _ & _ & CUR). cbn [fst] in F1. rewrite E1 in F1. inversion F1; subst w s1; clear F1.
  destruct (CUR wd eq_refl) as (j & CU' & Pi & _); [unfold busy; rewrite TE; reflexivity|]. assert (j = i) as -> by congruence.
  destruct (stop_delayed _ _ _ _ _ _ _ _ _ _ (o_tab _ K1) E2 TE CU Pi DC AK) as [PA RS]. destruct (ts_add_ns now diff N1 N2) as [X1 X2]. exists (ts_add now diff). auto.
Qed.
Print Assumptions C31_delay.
(** From then on, whatever other tracees do and however often the timer fires, no request to go on is
    made to it before the clock has passed that time: as long as the handler of the timer reads at
    most that. *)
Theorem C31_not_early c ps cmd s l b s' i g x : reached c ps cmd s -> fair c s l -> c_detexec c = false -> turns c s l = Ok (b, s') -> put_aside s i g x -> normal x -> sleeps c i s l ->
  (forall ne now es, In ne l -> n_timer (fst ne) = Some (now, es) -> normal now /\ (ns now <= ns x)%Z) ->
  put_aside s' i g x /\ restarts g (reqs s') = restarts g (reqs s).
Proof.
  intros R F DX E PA NX SL TM. destruct (reached_core _ _ _ _ R) as [K KE]. eapply turns_aside; eauto. intros ne now es IN T. destruct (TM ne now es IN T) as [N1 L]. pose proof (ts_cmp_ns _ _ N1 NX). lia.
Qed.
Print Assumptions C31_not_early.
(** When the timer's handler runs later than that, the tracee is asked to go on, unless the handler
    was kept from its work by a signal or a failure. *)
Theorem C31_resumed c s now es s' i : timer_sighandler c s now es = Ok s' -> rfail s' = false -> P s i <> 0 -> fl s i DELAYED = true -> normal now -> normal (expiry (dl s) i) -> (ns (expiry (dl s) i) < ns now)%Z ->
  fl s' i DELAYED = false /\ exists l1 l2 o, reqs s' = reqs s ++ l1 ++ {| r_gen := gen (lg s) i; r_op := o; r_pid := P s i; r_sig := 0 |} :: l2 /\ is_restart o = true.
Proof. intros E RF Pi D N1 N2 L. eapply timer_resumes; eauto. pose proof (ts_cmp_ns _ _ N1 N2). lia. Qed.
Print Assumptions C31_resumed.
(** Throughout a run, as long as some tracee is delayed a timer is armed for at most [d] after the end
    of its delay, where [d] is the time that may pass between two readings of the clock in a row.
    Partial: the delay may be exceeded by [d] (see C31_timer_refuted), and a timer that fired but was not handled yet is not counted as armed (C31_fired_refuted). *)
Theorem C31_timer_partial c ch po li ps cmd ans s0 l b s d t : distinct_targets ps cmd ans -> startup c (st0 ch po li) ps cmd ans = Ok s0 -> fair c s0 l -> c_detexec c = false -> (0 <= d)%Z -> ticks c d t s0 l ->
  turns c s0 l = Ok (b, s) -> rfail s = false ->
  forall i, P s i <> 0 -> fl s i DELAYED = true -> armed (dl s) = true /\ (ns (timer_at (dl s)) <= ns (expiry (dl s) i) + d)%Z.
Proof.
  intros D E0 F DX D0 TK E RF i Pi DL. destruct (startup_core _ _ _ _ _ _ _ _ D E0) as [B _]. destruct (fresh_start _ _ _ _ _ _ _ _ E0) as [FR _].
  destruct (turns_ticks c d l D0 s0 t b s (k_core _ B) (k_kept _ B) F DX E TK) as (t' & T); [|apply (fr_rfail _ FR)|exact RF|destruct (to_exp _ _ _ T i Pi DL) as (_ & _ & A & L); auto].
  constructor; rewrite ?(fr_created _ FR), ?(fr_armed _ FR); try discriminate. intros k _ X. rewrite (fr_del _ FR) in X. discriminate.
Qed.
Print Assumptions C31_timer_partial.

(** ** Beside *)
(** Process 5 is delayed by 3 s at 10 s; process 6 appears and makes a call, delayed by 1 s at 11 s; the
    timer is heard at 12 s, and again after 13 s. *)
Definition slow (n : list N) (d now now' : ts) : denv :=
  let e := dx n in
  {| e_scno := e_scno e; e_args := e_args e; e_name := e_name e; e_exec := e_exec e; e_traced := e_traced e; e_sig := 0; e_delay := Some (d, now, now'); e_xdelay := e_xdelay e; e_text := e_text e; e_dec := e_dec e;
     x_res := x_res e; x_delay := x_delay e; x_err := x_err e; x_text := x_text e; x_ret := x_ret e; x_extra := x_extra e; e_sec := e_sec e; e_stopmsg := e_stopmsg e; e_err := e_err e; e_det := e_det e; e_waits := e_waits e; e_intr := e_intr e |}.
Definition at_s (n m : Z) : ts := {| sec := n; nsec := m |}.
Definition ring (now : ts) : nenv * denv := ({| n_intr := 0; n_timer := Some (now, fun _ => dx []); n_waits := [NPid 0 0 false 0]; n_opterr := 0; n_gname := None |}, dx []).
Definition d5 (d now now' : ts) : nenv * denv := (nx [sys 5], slow (bs "getpid") d now now').
Definition d6 (d now now' : ts) : nenv * denv := (nx [sys 6], slow (bs "getuid") d now now').
Definition run31 : list (nenv * denv) := [d5 (at_s 3 0) (at_s 10 0) (at_s 10 1)].
Definition run31a : list (nenv * denv) := [tx [new 6] []; d6 (at_s 1 0) (at_s 11 0) (at_s 11 1); ring (at_s 12 1)].
Fixpoint sleeps_check (c : cfg) (i : nat) (s : st) (l : list (nenv * denv)) : bool :=
  match l with
  | [] => true
  | ne :: r =>
      (match next_event c s (fst ne) with Ok (Some wd, s1) => match current (lg s1) with Some j => negb (Nat.eqb j i) || negb (reads wd) | None => true end | _ => true end) &&
      match turn c s ne with Ok (go, s') => negb (P s' i =? 0) && (if go then sleeps_check c i s' r else true) | _ => true end
  end.
Lemma sleeps_ok c i l : forall s, sleeps_check c i s l = true -> sleeps c i s l.
Proof.
  induction l as [|ne r IH]; intros s H; [exact I|]. cbn [sleeps_check] in H. apply andb_true_iff in H as [H1 H2]. cbn [sleeps]. split.
  - destruct (next_event c s (fst ne)) as [[[wd|] s1]| |]; try exact I. intros C. rewrite C, Nat.eqb_refl in H1. cbn [negb orb] in H1. apply negb_true_iff in H1. exact H1.
  - destruct (turn c s ne) as [[[] s']| |]; try exact I; apply andb_true_iff in H2 as [H2 H3]; apply negb_true_iff, N.eqb_neq in H2; split; auto.
Qed.
Definition normalb (t : ts) : bool := ((0 <=? nsec t) && (nsec t <? 1000000000))%Z.
Lemma normal_ok t : normalb t = true -> normal t. Proof. unfold normalb, normal. lia. Qed.
Fixpoint ticks_check (c : cfg) (d t : Z) (s : st) (l : list (nenv * denv)) (tt : list (Z * Z)) : bool :=
  match l, tt with
  | [], _ => true
  | _ :: _, [] => false
  | ne :: r, (t1, t2) :: ts => (t <=? t1)%Z && (t1 <=? t2)%Z &&
      (match n_timer (fst ne) with Some (now, _) => normalb now && (ns (timer_at (dl s)) <=? ns now)%Z && (ns now <=? t1)%Z | None => true end) &&
      (match next_event c s (fst ne) with
       | Ok (Some wd, s1) => negb (reads wd) || match current (lg s1) with
           | Some i => match asked s1 i (snd ne) with
             | Some (diff, now, now') => normalb diff && normalb now && normalb now' && (t1 <=? ns now)%Z && (ns now <=? ns now')%Z && (ns now' <=? ns now + d)%Z && (ns now' <=? t2)%Z && (negb (armed (dl s1)) || (ns now' <? ns (timer_at (dl s1)))%Z)
             | None => true
             end
           | None => true
           end
       | _ => true
       end) &&
      match turn c s ne with Ok (true, s') => ticks_check c d t2 s' r ts | _ => true end
  end.
Lemma ticks_ok c d l : forall t s tt, ticks_check c d t s l tt = true -> ticks c d t s l.
Proof.
  induction l as [|ne r IH]; intros t s tt H; [exact I|]. destruct tt as [|[t1 t2] tt]; [discriminate|]. cbn [ticks_check] in H. apply andb_true_iff in H as [H H4]. apply andb_true_iff in H as [H H3]. apply andb_true_iff in H as [H H2]. cbn [ticks]. exists t1, t2. split; [lia|]. split; [|split].
  - intros now es T _ _. rewrite T in H2. apply andb_true_iff in H2 as [H2 H5]. apply andb_true_iff in H2 as [H2 H6]. split; [apply normal_ok; exact H2|lia].
  - destruct (next_event c s (fst ne)) as [[[wd|] s1]| |]; try exact I. intros RD i C diff now now' AK. rewrite RD, C, AK in H3. cbn [negb orb] in H3. repeat (apply andb_true_iff in H3 as [H3 ?]). repeat split; try (apply normal_ok; assumption); try lia.
  - destruct (turn c s ne) as [[[] s']| |]; try exact I. eapply IH; eauto.
Qed.
(** the hypotheses of C31_delay *)
Example C31_delay_example : reached (cx true) [5] None (started (cx true) 5) /\ held (started (cx true) 5) /\ match next_event (cx true) (started (cx true) 5) (nx [sys 5]) with
  | Ok (Some wd, s) => te wd = TE_SYSCALL_STOP /\ current (lg s) = Some 0%nat /\ delayed_call s 0 (snd (d5 (at_s 3 0) (at_s 10 0) (at_s 10 1))) /\ good (dispatch_event (cx true) s (Some wd) (snd (d5 (at_s 3 0) (at_s 10 0) (at_s 10 1)))) = true
  | _ => False
  end.
Proof.
  split; [|split; [vm_compute; exact I|]].
  - exists 0, 0, (-1)%Z, (one 5), (started (cx true) 5), [], true. split; [apply targets1; discriminate|]. split; [apply start_started; vm_compute; reflexivity|]. split; [exact I|reflexivity].
  - assert (X : match next_event (cx true) (started (cx true) 5) (nx [sys 5]) with
      | Ok (Some wd, s) => (match te wd with TE_SYSCALL_STOP => true | _ => false end) && (match current (lg s) with Some O => true | _ => false end) && negb (fl s 0 INSYSCALL) && negb (fl s 0 HIDE_LOG) && good (dispatch_event (cx true) s (Some wd) (snd (d5 (at_s 3 0) (at_s 10 0) (at_s 10 1))))
      | _ => false end = true) by (vm_compute; reflexivity).
    destruct (next_event _ _ _) as [[[wd|] s]| |]; try discriminate. repeat (apply andb_true_iff in X as [X ?]). destruct (te wd); try discriminate. destruct (current (lg s)) as [[|]|]; try discriminate. unfold delayed_call.
    destruct (fl s 0 INSYSCALL); [discriminate|]. destruct (fl s 0 HIDE_LOG); [discriminate|]. repeat split; auto.
Qed.
(** those of C31_not_early, after it, and the end of the delay *)
Lemma turns_from c p l l' : match turns c (started c p) l with Ok (b, _) => b | _ => false end = true -> turns c (ended c p l) l' = turns c (started c p) (l ++ l').
Proof.
  unfold ended. generalize (started c p). induction l as [|ne l IH]; intros s E; [reflexivity|]. cbn [app turns] in *. destruct (turn c s ne) as [[[] s1]| |]; cbn [rbind] in *; try discriminate. apply IH. exact E.
Qed.
Example C31_not_early_example : reached (cx true) [5] None (ended (cx true) 5 run31) /\ fair (cx true) (ended (cx true) 5 run31) run31a /\ turns (cx true) (ended (cx true) 5 run31) run31a = Ok (true, ended (cx true) 5 (run31 ++ run31a)) /\
  put_aside (ended (cx true) 5 run31) 0 1 (at_s 13 0) /\ sleeps (cx true) 0 (ended (cx true) 5 run31) run31a /\
  map r_gen (reqs (ended (cx true) 5 (run31 ++ run31a))) = [2%nat; 2%nat] /\ map r_gen (reqs (ended (cx true) 5 (run31 ++ run31a ++ [ring (at_s 13 1)]))) = [2%nat; 2%nat; 1%nat].
Proof.
  assert (E1 : match turns (cx true) (started (cx true) 5) run31 with Ok (b, _) => b | _ => false end = true) by (vm_compute; reflexivity).
  split; [apply reached_run; [discriminate|vm_compute; reflexivity]|]. split; [apply gentle_fair; vm_compute; reflexivity|]. split; [rewrite turns_from by exact E1; apply ran; vm_compute; reflexivity|]. split; [constructor; [vm_compute; discriminate|vm_compute; reflexivity..]|]. split; [apply sleeps_ok; vm_compute; reflexivity|]. split; vm_compute; reflexivity.
Qed.
(** those of C31_resumed *)
Example C31_resumed_example : P (ended (cx true) 5 run31) 0 = 5 /\ fl (ended (cx true) 5 run31) 0 DELAYED = true /\ expiry (dl (ended (cx true) 5 run31)) 0 = at_s 13 0 /\
  match timer_sighandler (cx true) (ended (cx true) 5 run31) (at_s 13 1) (fun _ => dx []) with Ok s => rfail s | _ => true end = false.
Proof. repeat split; vm_compute; reflexivity. Qed.
(** those of C31_timer_partial, with readings of the clock 1 ns apart *)
Example C31_timer_example : fair (cx true) (started (cx true) 5) (run31 ++ run31a) /\ ticks (cx true) 1 0 (started (cx true) 5) (run31 ++ run31a) /\ turns (cx true) (started (cx true) 5) (run31 ++ run31a) = Ok (true, ended (cx true) 5 (run31 ++ run31a)) /\
  rfail (ended (cx true) 5 (run31 ++ run31a)) = false /\ fl (ended (cx true) 5 (run31 ++ run31a)) 0 DELAYED = true /\ timer_at (dl (ended (cx true) 5 (run31 ++ run31a))) = at_s 13 0.
Proof.
  split; [apply gentle_fair; vm_compute; reflexivity|]. split; [apply ticks_ok with (tt := [(0, 10000000001); (10000000001, 10000000001); (10000000001, 11000000001); (12000000001, 12000000001)]%Z); vm_compute; reflexivity|].
  split; [apply ran; vm_compute; reflexivity|]. repeat split; vm_compute; reflexivity.
Qed.

(** The full claim, that the timer is armed no later than the end of every delay, fails in two ways.
    The length of the new delay is compared with the time left of the timer, which is read later than
    the time that the end of the delay is reckoned from: *)
Definition run31s : list (nenv * denv) := [d5 (at_s 10 0) (at_s 0 0) (at_s 0 0); tx [new 6] []; d6 (at_s 8 500000000) (at_s 1 0) (at_s 2 0)].
Theorem C31_timer_refuted : exists c s0 l b s i, startup c (st0 0 0 (-1)) [5] None (one 5) = Ok s0 /\ fair c s0 l /\ ticks c 1000000000 0 s0 l /\ turns c s0 l = Ok (b, s) /\ rfail s = false /\
  P s i <> 0 /\ fl s i DELAYED = true /\ (ns (expiry (dl s) i) < ns (timer_at (dl s)))%Z.
Proof.
  exists (cx true), (started (cx true) 5), run31s, true, (ended (cx true) 5 run31s), 1%nat. split; [apply start_started; vm_compute; reflexivity|]. split; [apply gentle_fair; vm_compute; reflexivity|].
  split; [apply ticks_ok with (tt := [(0, 0); (0, 0); (0, 2000000000)]%Z); vm_compute; reflexivity|]. split; [apply ran; vm_compute; reflexivity|]. split; [vm_compute; reflexivity|]. split; [vm_compute; discriminate|]. split; vm_compute; reflexivity.
Qed.
Print Assumptions C31_timer_refuted.
(** and when the timer has fired and its handler has not run yet (signals are blocked but while strace
    waits), a new delay puts the timer off: the one of process 5 ends at 10 s, the timer is then armed
    for 16 s, and process 5 is asked to go on only then. *)
Definition run31f : list (nenv * denv) := [d5 (at_s 10 0) (at_s 0 0) (at_s 0 0); tx [new 6] []; d6 (at_s 5 0) (at_s 11 0) (at_s 11 0)].
Theorem C31_fired_refuted : exists c s0 l b s i, startup c (st0 0 0 (-1)) [5] None (one 5) = Ok s0 /\ fair c s0 l /\ turns c s0 l = Ok (b, s) /\ rfail s = false /\
  P s i <> 0 /\ fl s i DELAYED = true /\ expiry (dl s) i = at_s 10 0 /\ timer_at (dl s) = at_s 16 0.
Proof.
  exists (cx true), (started (cx true) 5), run31f, true, (ended (cx true) 5 run31f), 0%nat. split; [apply start_started; vm_compute; reflexivity|]. split; [apply gentle_fair; vm_compute; reflexivity|].
  split; [apply ran; vm_compute; reflexivity|]. split; [vm_compute; reflexivity|]. split; [vm_compute; discriminate|]. repeat split; vm_compute; reflexivity.
Qed.
Print Assumptions C31_fired_refuted.
