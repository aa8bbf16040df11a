(** Concrete runs, for the examples beside the theorems about the event loop. *)
From Verif Require Import Base TimeModel WaitModel TcbModel LogModel LoopModel LoopSpec.
Local Open Scope N_scope.

Definition t0 : ts := {| sec := 0; nsec := 0 |}.
(** -f -o FILE with PTRACE_SEIZE *)
Definition lx (all : bool) : lcfg := {| c_ff := false; c_named := true; c_pfx := true; c_all := all; c_succ := true; c_failed := false; c_unfin := false; c_unavail := false; c_det := false |}.
Definition cfgx (all sigs : bool) : cfg := {| lc := lx all; c_stats := false; c_seize := true; c_follow := true; c_detexec := false; c_qexit := false; c_qthread := false; c_sigs := fun _ => sigs; c_secbefore := true; c_os3 := true; c_trapsig := 133; c_signame := fun _ => bs "SIG" |}.
Definition cx (all : bool) : cfg := cfgx all true.
(** a call with the name n that goes well *)
Definition dx (n : list N) : denv := {| e_scno := 1; e_args := 1; e_name := n; e_exec := false; e_traced := true; e_sig := 0; e_delay := None; e_xdelay := false; e_text := bs "1"; e_dec := false;
  x_res := 1; x_delay := (t0, t0, t0); x_err := false; x_text := bs ", 2"; x_ret := bs "0"; x_extra := []; e_sec := false; e_stopmsg := bs "--- SIG ---"; e_err := 0;
  e_det := {| a_detach := 0; a_alive := 0; a_stop := 0 |}; e_waits := []; e_intr := 0 |}.
Definition nx (ws : list nwait) : nenv := {| n_intr := 0; n_timer := None; n_waits := ws; n_opterr := 0; n_gname := None |}.
Definition stopped (sig ev : N) : N := N.lor (N.shiftl ev 16) (N.lor (N.shiftl sig 8) 127).
Definition sys (p : N) : nwait := NPid p (stopped 133 0) false 0.
(** a process appears *)
Definition new (p : N) : nwait := NPid p (stopped 5 EV_STOP) false 0.
Definition execed (p : N) (old : Z) : nwait := NPid p (stopped 5 EV_EXEC) false old.
Definition tx (ws : list nwait) (n : list N) : nenv * denv := (nx ws, dx n).
Definition one (p : N) : nat -> bool * list N := fun _ => (true, []).
Definition end_of (r : res (bool * st)) : st := match r with Ok (_, s) => s | _ => st0 0 0 0 end.
Definition start_of (r : res st) : st := match r with Ok s => s | _ => st0 0 0 0 end.
(** a check that a run is fair and orderly, for runs without -b execve *)
Fixpoint proper (c : cfg) (s : st) (l : list (nenv * denv)) : bool :=
  match l with
  | [] => true
  | ne :: r =>
      (match extra (qu s) with Some (i, _) => negb (P s i =? 0) | None => true end) && negb (c_detexec c) &&
      (match next_event c s (fst ne) with
       | Ok (Some wd, s1) => match te wd, current (lg s1) with TE_STOP_BEFORE_EXECVE, Some i => col (lg s1) i =? 0 | _, _ => true end
       | _ => true
       end) &&
      match turn c s ne with Ok (true, s') => proper c s' r | _ => true end
  end.
Lemma proper_ok c l : forall s, proper c s l = true -> fair c s l /\ orderly c s l.
Proof.
  induction l as [|ne r IH]; intros s H; [split; exact I|]. cbn [proper] in H. apply andb_true_iff in H as [H H4]. apply andb_true_iff in H as [H H3]. apply andb_true_iff in H as [H1 H2]. apply negb_true_iff in H2.
  assert (HE : held s) by (unfold held; destruct (extra (qu s)) as [[i k]|]; [|exact I]; apply negb_true_iff, N.eqb_neq in H1; exact H1).
  cbn [fair orderly]. split; (split; [exact HE|split; [|destruct (turn c s ne) as [[[] s']| |]; try exact I; apply IH; exact H4]]).
  - unfold exec_alone. destruct (next_event c s (fst ne)) as [[[wd|] s1]| |]; try exact I. intros _ i _ D. congruence.
  - unfold calm_turn. destruct (next_event c s (fst ne)) as [[[wd|] s1]| |]; try exact I. intros T i C _. rewrite T, C in H3. apply N.eqb_eq. exact H3.
Qed.
Lemma targets1 p : p <> 0 -> distinct_targets [p] None (one p).
Proof. intros N. split; cbn; try (intros; contradiction). - constructor; [intros []|constructor]. - intros [X|[]]; congruence. - discriminate. - constructor. Qed.
Definition started (c : cfg) (p : N) : st := start_of (startup c (st0 0 0 (-1)) [p] None (one p)).
Definition good {A} (r : res A) : bool := match r with Ok _ => true | _ => false end.
Definition ended (c : cfg) (p : N) (l : list (nenv * denv)) : st := end_of (turns c (started c p) l).
Lemma reached_run c p l : p <> 0 -> good (startup c (st0 0 0 (-1)) [p] None (one p)) && good (turns c (started c p) l) && proper c (started c p) l = true ->
  reached c [p] None (ended c p l) /\ reached_calm c [p] None (ended c p l).
Proof.
  intros N H. apply andb_true_iff in H as [H1 H]. apply andb_true_iff in H1 as [H1 H2]. destruct (proper_ok _ _ _ H) as [F O].
  assert (E1 : startup c (st0 0 0 (-1)) [p] None (one p) = Ok (started c p)) by (unfold started; destruct (startup _ _ _ _ _); [reflexivity|discriminate..]).
  assert (E2 : exists b, turns c (started c p) l = Ok (b, ended c p l)) by (unfold ended; destruct (turns _ _ _) as [[b s]| |]; [exists b; reflexivity|discriminate..]). destruct E2 as [b E2].
  split; exists 0, 0, (-1)%Z, (one p), (started c p), l, b; auto using targets1.
Qed.
(** a check that a run is fair *)
Fixpoint gentle (c : cfg) (s : st) (l : list (nenv * denv)) : bool :=
  match l with
  | [] => true
  | ne :: r => (match extra (qu s) with Some (i, _) => negb (P s i =? 0) | None => true end) && negb (c_detexec c) &&
      match turn c s ne with Ok (true, s') => gentle c s' r | _ => true end
  end.
Lemma gentle_fair c l : forall s, gentle c s l = true -> fair c s l.
Proof.
  induction l as [|ne r IH]; intros s H; [exact I|]. cbn [gentle] in H. apply andb_true_iff in H as [H H4]. apply andb_true_iff in H as [H1 H2]. apply negb_true_iff in H2. cbn [fair].
  split; [unfold held; destruct (extra (qu s)) as [[i k]|]; [|exact I]; apply negb_true_iff, N.eqb_neq in H1; exact H1|]. split; [|destruct (turn c s ne) as [[[] s']| |]; try exact I; apply IH; exact H4].
  unfold exec_alone. destruct (next_event c s (fst ne)) as [[[wd|] s1]| |]; try exact I. intros _ i _ D. congruence.
Qed.
