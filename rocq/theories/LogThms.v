(** The log of the event loop: C23, C24. *)
From Verif Require Import Base TimeModel WaitModel Printf TcbModel LogModel LogSpec LogProofs LoopModel LoopSpec LoopInv LoopTurn LoopRun LoopEnds LoopEx XlatText.
Local Open Scope N_scope.

Lemma reached_inv c ps cmd s : c_ff (lc c) = false -> c_all (lc c) = true -> reached_calm c ps cmd s -> inv c s.
Proof.
  intros NOFF ALL (ch & po & li & ans & s0 & l & b & D & E0 & F & E).
  pose proof (startup_safe c NOFF ALL ch po li ps cmd ans D) as X. rewrite E0 in X. destruct X as [I0 H0].
  pose proof (turns_safe c NOFF ALL l s0 I0 F) as X. rewrite E in X. exact X.
Qed.
Lemma linv_read Pf l a : linv Pf l a -> read reader0 (files l Shared) = Some a.
Proof. intros [Q|(i & n & K)]; [apply (b_read _ _ (q_base _ _ Q))|apply (b_read _ _ (k_base _ _ _ _ _ K))]. Qed.
Lemma inv_read c s : inv c s -> exists a, read reader0 (files (lg s) Shared) = Some a.
Proof. intros [a I]. exists a. apply (linv_read (P s)), I. Qed.
Lemma read_lines l a : read reader0 l = Some a -> exists w, one_author None l = Some w.
Proof. intros H. apply read_one_author in H. eauto. Qed.

(** ** C23 *)
(** Without -ff and status filtering the log consists of lines, each with its own prefix and written by
    one tracee, whatever tracees, kernel and user do in between; the last line may be unfinished ...
    Partial: -ff and status filtering are excluded, and so is execve by a thread other than the leader (see the refuted theorems). *)
Theorem C23_lines_partial c ps cmd s : c_ff (lc c) = false -> c_all (lc c) = true -> reached_calm c ps cmd s -> exists w, one_author None (files (lg s) Shared) = Some w.
Proof. intros F A R. destruct (inv_read _ _ (reached_inv _ _ _ _ F A R)) as [a H]. eapply read_lines; exact H. Qed.
Print Assumptions C23_lines_partial.
(** ... also after the tracees that are left were detached at the end ...
    Partial: as above. *)
Theorem C23_lines_cleanup_partial c ps cmd s ek as_ ws s' : c_ff (lc c) = false -> c_all (lc c) = true -> reached_calm c ps cmd s -> cleanup c s ek as_ ws = Ok s' ->
  exists w, one_author None (files (lg s') Shared) = Some w.
Proof.
  intros F A R E. pose proof (cleanup_safe c F A s ek as_ ws (reached_inv _ _ _ _ F A R)) as X. rewrite E in X. destruct (inv_read _ _ X) as [a H]. eapply read_lines; exact H.
Qed.
Print Assumptions C23_lines_cleanup_partial.
(** ... where lines are lines of text: a newline byte is only in the end of a line, if decoders write none *)
Lemma digits_no_newline n : ~ In 10 (pr_num 10 n).
Proof. apply pr_num_not_in; lia. Qed.
Theorem C23_newlines w x : no_newline x -> In 10 (render_tok w x) -> exists e, x = Nl e.
Proof.
  assert (B : forall a b, ~ In 10 a -> ~ In 10 b -> ~ In 10 (a ++ b)) by (intros a b A B C; apply in_app_iff in C; tauto).
  pose proof digits_no_newline as D. intros N I. destruct x as [[]| | | | | | | | | | |]; cbn [no_newline] in N; cbn [render_tok] in I; eauto; exfalso; revert I; repeat apply B; auto; cbn; intuition discriminate.
Qed.
Print Assumptions C23_newlines.

(** ** C24 *)
(** Reading the log never gets stuck: a call is "resumed" only where it was left unfinished before, under
    the same name and by the same tracee; a result is only on a line that names its call; and a tracee
    that starts another call gave up its unfinished one. *)
Theorem C24_read c ps cmd s : c_ff (lc c) = false -> c_all (lc c) = true -> reached_calm c ps cmd s -> exists a, read reader0 (files (lg s) Shared) = Some a.
Proof. intros F A R. exact (inv_read _ _ (reached_inv _ _ _ _ F A R)). Qed.
Print Assumptions C24_read.
Theorem C24_read_cleanup c ps cmd s ek as_ ws s' : c_ff (lc c) = false -> c_all (lc c) = true -> reached_calm c ps cmd s -> cleanup c s ek as_ ws = Ok s' ->
  exists a, read reader0 (files (lg s') Shared) = Some a.
Proof. intros F A R E. pose proof (cleanup_safe c F A s ek as_ ws (reached_inv _ _ _ _ F A R)) as X. rewrite E in X. exact (inv_read _ _ X). Qed.
Print Assumptions C24_read_cleanup.
(** In each state, a tracee whose call is being shown has its line open, or that call is the one left
    unfinished in the log: so its exit is shown on a line that names it *)
Theorem C24_shown c ps cmd s i : c_ff (lc c) = false -> c_all (lc c) = true -> reached_calm c ps cmd s -> c_stats c = false ->
  P s i <> 0 -> fl s i INSYSCALL = true -> fl s i FILTERED = false ->
  exists a, read reader0 (files (lg s) Shared) = Some a /\
  (ln a = InCall {| w_gen := gen (lg s) i; w_pid := P s i |} (sname s i) \/ unf a (gen (lg s) i) = Some (sname s i)).
Proof.
  intros F A R ST Pi IN FI. destruct (reached_inv _ _ _ _ F A R) as [a I]. exists a. split; [apply (linv_read (P s)), I|].
  destruct (i_show _ _ _ _ I ST i Pi IN FI) as [K|[_ K]]; [left; apply (k_ln _ _ _ _ _ K)|right; exact K].
Qed.
Print Assumptions C24_shown.

(** ** A run *)
(** -p 5 -f: 5 enters read; 6 appears; 6 enters write; the exits of read and write come together; 6 is killed *)
Definition run3 : list (nenv * denv) := [tx [sys 5] (bs "read"); tx [new 6] []; tx [sys 6] (bs "write"); tx [sys 5; sys 6] []; tx [] []; tx [NPid 6 9 false 0] []].
Example C23_C24_reached : let s := ended (cx true) 5 run3 in reached_calm (cx true) [5] None s /\
  render (files (lg s) Shared) =
    bs "5 read(1 <unfinished ...>" ++ [10] ++ bs "6 write(1 <unfinished ...>" ++ [10] ++ bs "5 <... read resumed>, 2) = 0" ++ [10] ++ bs "6 <... write resumed>, 2) = 0" ++ [10] ++ bs "6 +++ killed by SIG +++" ++ [10].
Proof. cbv zeta. split; [apply reached_run; [lia|vm_compute; reflexivity]|vm_compute; reflexivity]. Qed.
Example C24_shown_reached : let s := ended (cx true) 5 (firstn 3 run3) in reached_calm (cx true) [5] None s /\ P s 0 <> 0 /\ fl s 0 INSYSCALL = true /\ fl s 0 FILTERED = false.
Proof. cbv zeta. split; [apply reached_run; [lia|vm_compute; reflexivity]|]. split; [vm_compute; discriminate|]. split; vm_compute; reflexivity. Qed.

(** ** Where lines are mixed *)
(** A leader that is in the middle of its line is replaced by its thread 6: the line is not ended, the
    message that says so follows on it.  This is a fair run, so C23 does not hold of all of them. *)
Definition run4 : list (nenv * denv) := [tx [new 6] []; tx [sys 6] (bs "execve"); tx [sys 5] (bs "read"); tx [execed 5 6] []].
Theorem C23_superseded_refuted : exists s, turns (cx true) (started (cx true) 5) run4 = Ok (true, s) /\ fair (cx true) (started (cx true) 5) run4 /\
  one_author None (files (lg s) Shared) = None /\ read reader0 (files (lg s) Shared) = None /\
  render (files (lg s) Shared) = bs "6 execve(1 <unfinished ...>" ++ [10] ++ bs "5 read(15 +++ superseded by execve in pid 6 +++" ++ [10].
Proof.
  set (r := turns (cx true) (started (cx true) 5) run4). exists (end_of r). split.
  - assert (B : match r with Ok (b, _) => b | _ => false end = true) by (vm_compute; reflexivity). unfold end_of. destruct r as [[[] s1]| |]; try discriminate B; reflexivity.
  - split; [|split; [vm_compute; reflexivity|split; vm_compute; reflexivity]]. apply gentle_fair. vm_compute. reflexivity.
Qed.
Print Assumptions C23_superseded_refuted.
(** With status filtering what is kept back is put into the middle of a line that is open: 6 is in a call
    (kept back); the call that 5 enters cannot be decoded; the call of 6 ends. *)
Definition dbad : denv := {| e_scno := -1; e_args := 1; e_name := []; e_exec := false; e_traced := true; e_sig := 0; e_delay := None; e_xdelay := false; e_text := []; e_dec := false;
  x_res := 1; x_delay := (t0, t0, t0); x_err := false; x_text := []; x_ret := []; x_extra := []; e_sec := false; e_stopmsg := []; e_err := 0;
  e_det := {| a_detach := 0; a_alive := 0; a_stop := 0 |}; e_waits := []; e_intr := 0 |}.
Definition run5 : list (nenv * denv) := [tx [new 6] []; tx [sys 6] (bs "write"); (nx [sys 5], dbad); tx [sys 6] []].
Theorem C23_staged_refuted : exists s, turns (cx false) (started (cx false) 5) run5 = Ok (true, s) /\ fair (cx false) (started (cx false) 5) run5 /\
  one_author None (files (lg s) Shared) = None /\
  render (files (lg s) Shared) = bs "5 ????(6 write(1, 2) = 0" ++ [10].
Proof.
  set (r := turns (cx false) (started (cx false) 5) run5). exists (end_of r). split.
  - assert (B : match r with Ok (b, _) => b | _ => false end = true) by (vm_compute; reflexivity). unfold end_of. destruct r as [[[] s1]| |]; try discriminate B; reflexivity.
  - split; [|split; vm_compute; reflexivity]. apply gentle_fair. vm_compute. reflexivity.
Qed.
Print Assumptions C23_staged_refuted.
