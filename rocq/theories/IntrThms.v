(** C93: -I, and what signals the program and strace itself react to. *)
From Verif Require Import Base IntrModel IntrSpec.
Local Open Scope N_scope.

Lemma mode_ok o : opt_intr o = mode o.
Proof. unfold opt_intr, mode, default_mode. destruct (o_intr o =? 0) eqn:E; [apply N.eqb_eq in E; rewrite E|]; destruct (o_daemon o), (o_out o), (o_prog o); cbn; rewrite ?E; reflexivity. Qed.

(** The mode is the one asked for, and otherwise as the manual says. *)
Theorem C93_mode o : opt_intr o = (if o_intr o =? 0 then if o_daemon o then 4 else if o_out o && o_prog o then 3 else 2 else o_intr o).
Proof. apply mode_ok. Qed.
Print Assumptions C93_mode.

(** The program is started with the dispositions and the blocked signals that strace was started with, for every signal and all options. *)
Theorem C93_program o p0 q : fresh p0 -> fst (init o p0) = Some q -> forall s, action q s = action p0 s /\ blocked q s = blocked p0 s.
Proof.
  intros F E s. unfold init in E. destruct (o_prog o); [|discriminate E]. unfold startup_child, exec_or_die in E. destruct (o_daemon o); cbn [negb] in E; injection E as <-; (split; [|destruct (is_dfl _); reflexivity]);
  specialize (F s); (destruct (s =? SIGCHLD) eqn:Q; [apply N.eqb_eq in Q; subst s|]; destruct (action p0 SIGCHLD) eqn:A; cbn; rewrite ?Q, ?A; try reflexivity; destruct F as [F|F]; congruence || (rewrite F; reflexivity)).
Qed.
Print Assumptions C93_program.

Lemma tracer_fatal o p0 s : fatal s -> mode o <> 1 -> action (snd (init o p0)) s = (if mode o =? 2 then Interrupt else Ign).
Proof.
  intros F M. unfold init, install. rewrite mode_ok. apply N.eqb_neq in M. rewrite M.
  assert (A : forall p, action (if o_daemon o then fork p else p) s = action p s) by (intros p; destruct (o_daemon o); reflexivity).
  destruct (if o_prog o then _ else _) as [pr p]. cbn [snd]. rewrite A. clear A. unfold fatal in F. cbn [In] in F. destruct F as [<-|[<-|[<-|[<-|[<-|[]]]]]]; reflexivity.
Qed.
(** never, never_tstp: none of those signals has any effect on strace, even if it was blocked *)
Theorem C93_never o p0 s : fatal s -> 3 <= mode o -> deliver (snd (init o p0)) s = Nothing.
Proof. intros F M. unfold deliver. rewrite tracer_fatal by (try assumption; lia). replace (mode o =? 2) with false by (symmetry; apply N.eqb_neq; lia). reflexivity. Qed.
Print Assumptions C93_never.
(** never_tstp: nor has SIGTSTP (20) *)
Theorem C93_never_tstp o p0 : mode o = 4 -> deliver (snd (init o p0)) 20 = Nothing.
Proof. intros M. unfold deliver, init, install. rewrite mode_ok, M. cbn [N.eqb Pos.eqb]. destruct (if o_prog o then _ else _) as [pr p]. destruct (o_daemon o); reflexivity. Qed.
Print Assumptions C93_never_tstp.
(** waiting: those signals are noted, and do nothing else by themselves, unless strace was started with them blocked *)
Lemma tracer_blocked o p0 s : s <> SIGALRM -> blocked (snd (init o p0)) s = blocked p0 s.
Proof.
  intros N. apply N.eqb_neq in N. unfold init, install, startup_child. destruct (opt_intr o =? 1), (opt_intr o =? 4), (opt_intr o =? 2), (o_prog o), (o_daemon o); cbn; rewrite N; reflexivity.
Qed.
Theorem C93_waiting o p0 s : fatal s -> mode o = 2 -> deliver (snd (init o p0)) s = (if blocked p0 s then Waits else Noted).
Proof.
  intros F M. unfold deliver. rewrite tracer_fatal by (try assumption; lia). rewrite M. cbn [N.eqb Pos.eqb]. rewrite tracer_blocked; [reflexivity|]. unfold fatal in F. cbn [In] in F. unfold SIGALRM. lia.
Qed.
Print Assumptions C93_waiting.
(** anywhere: strace takes them as any program would *)
Theorem C93_anywhere o p0 s : fatal s \/ s = 20 -> fresh p0 -> mode o = 1 ->
  deliver (snd (init o p0)) s = match action p0 s with Ign => Nothing | _ => if blocked p0 s then Waits else Default end.
Proof.
  intros F Fr M. unfold deliver. assert (A : action (snd (init o p0)) s = action p0 s).
  { unfold init, install, startup_child. rewrite mode_ok, M. unfold fatal in F. cbn [In] in F. destruct F as [[<-|[<-|[<-|[<-|[<-|[]]]]]]| ->]; destruct (o_prog o), (o_daemon o); reflexivity. }
  rewrite A, tracer_blocked by (unfold fatal in F; cbn [In] in F; unfold SIGALRM, SIGTSTP in *; lia). destruct (Fr s) as [-> | ->]; reflexivity.
Qed.
Print Assumptions C93_anywhere.
(** strace in the background is not stopped by reading from or writing to its terminal (SIGTTIN 21, SIGTTOU 22), whatever the options *)
Theorem C93_background o p0 s : s = 21 \/ s = 22 -> deliver (snd (init o p0)) s = Nothing.
Proof.
  intros F. unfold deliver. assert (A : action (snd (init o p0)) s = Ign); [|rewrite A; reflexivity].
  unfold init, install. destruct (if o_prog o then _ else _) as [pr p]. destruct F as [-> | ->]; destruct (opt_intr o =? 1), (opt_intr o =? 4), (opt_intr o =? 2), (o_daemon o); reflexivity.
Qed.
Print Assumptions C93_background.
(** the handler of the delay timer (SIGALRM, 14) cannot run except where strace unblocks the signal: around wait4 (LoopModel.next_event) *)
Theorem C93_timer o p0 : deliver (snd (init o p0)) 14 = Waits.
Proof. unfold deliver, init, install. destruct (if o_prog o then _ else _) as [pr p]. destruct (opt_intr o =? 1), (opt_intr o =? 4), (opt_intr o =? 2), (o_daemon o); reflexivity. Qed.
Print Assumptions C93_timer.

(** The command is told too, by the same signal (or SIGTERM, 15) after SIGCONT (18); the processes strace attached to are not. *)
Theorem C93_kills ek pids child g p s : In (p, s) (cleanup_kills ek pids child g) <-> ek = false /\ p <> 0 /\ In p pids /\ p = child /\ (s = 18 \/ s = if g =? 0 then 15 else g).
Proof.
  unfold cleanup_kills. destruct ek; [split; [intros []|intros (H & _); discriminate H]|]. rewrite in_flat_map. split.
  - intros (x & I & H). destruct (x =? 0) eqn:Z; [destruct H|]. destruct (x =? child) eqn:C; [|destruct H]. apply N.eqb_neq in Z. apply N.eqb_eq in C. destruct H as [H|[H|[]]]; injection H as <- <-; auto 10.
  - intros (_ & Z & I & C & H). exists p. split; [exact I|]. apply N.eqb_neq in Z. rewrite Z. apply N.eqb_eq in C. rewrite C. destruct H as [-> | ->]; cbn; auto.
Qed.
Print Assumptions C93_kills.

(** A signal that strace was told to ignore, as nohup(1) does, ends it all the same in the mode waiting; the manual says nothing of it. *)
Definition nohup : proc := {| action := fun s => if s =? SIGHUP then Ign else Dfl; blocked := fun _ => false; alarmed := true |}.
Theorem C93_nohup_refuted : exists o p0, fresh p0 /\ action p0 SIGHUP = Ign /\ deliver (snd (init o p0)) SIGHUP = Noted.
Proof. exists {| o_intr := 0; o_daemon := false; o_out := false; o_prog := true |}, nohup. split; [|split; reflexivity]. intros s. unfold nohup. cbn [action]. destruct (s =? SIGHUP); auto. Qed.
Print Assumptions C93_nohup_refuted.
(** With -D the program is the process that strace was; an alarm(2) set before is lost. *)
Theorem C93_alarm_refuted : exists o p0 q, fresh p0 /\ o_daemon o = true /\ alarmed p0 = true /\ fst (init o p0) = Some q /\ alarmed q = false.
Proof. exists {| o_intr := 0; o_daemon := true; o_out := false; o_prog := true |}, nohup. eexists. split; [|repeat split]. intros s. unfold nohup. cbn [action]. destruct (s =? SIGHUP); auto. Qed.
Print Assumptions C93_alarm_refuted.

Example C93_modes : let o i d f := {| o_intr := i; o_daemon := d; o_out := f; o_prog := true |} in
  mode (o 0 false false) = 2 /\ mode (o 0 false true) = 3 /\ mode (o 0 true true) = 4 /\ mode (o 1 true true) = 1 /\ fatal SIGINT /\ fresh nohup /\
  match fst (init (o 0 false true) nohup) with Some q => (action q SIGHUP, action q SIGINT) | None => (Dfl, Dfl) end = (Ign, Dfl).
Proof. cbv zeta. repeat split; try reflexivity; [right; left; reflexivity|]. intros s. unfold nohup. cbn [action]. destruct (s =? SIGHUP); auto. Qed.
