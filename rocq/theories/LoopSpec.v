(** What is expected of the event loop (C21, C25, C27); for the log see LogSpec. *)
From Verif Require Import Base TimeModel WaitModel TcbModel LogModel LoopModel.
Local Open Scope N_scope.

(** C25: [next]: whether a call is to be entered next *)
Fixpoint alternate (next : bool) (l : list bool) : Prop :=
  match l with [] => True | b :: r => b = next /\ alternate (negb next) r end.
(** of events with their tracees, those of tracee g *)
Definition of {A} (g : nat) (l : list (nat * A)) : list A := map snd (filter (fun x => Nat.eqb (fst x) g) l).

(** C27: the statuses that belong to tracees among the answers of wait4, (pid, status, ...).
    [known]: the processes that are traced; [seen]: those that already have a status in this
    batch, which ends with the second status of a process.  [popen]: the process that reads the
    log, if any.  An unknown process that stops is a new tracee if [follow]. *)
Inductive heard (follow : bool) (popen : N) : (N -> Prop) -> list N -> list (N * N) -> list (N * N) -> Prop :=
| heard_end known seen : heard follow popen known seen [] []
| heard_stop known seen p st r : p = 0 \/ p = popen -> heard follow popen known seen ((p, st) :: r) []
| heard_ignored known seen p st r l : p <> 0 -> p <> popen -> ~ known p -> (WIFSTOPPED st && follow = false) ->
    heard follow popen known seen r l -> heard follow popen known seen ((p, st) :: r) l
| heard_last known seen p st r : p <> 0 -> p <> popen -> In p seen -> heard follow popen known seen ((p, st) :: r) [(p, st)]
| heard_next known seen p st r l : p <> 0 -> p <> popen -> ~ In p seen -> known p \/ (WIFSTOPPED st && follow = true) ->
    heard follow popen (fun q => q = p \/ known q) (p :: seen) r l -> heard follow popen known seen ((p, st) :: r) ((p, st) :: l).

(** ** Tracees (C21) *)
(** the process is in the table *)
Definition traced (s : st) (p : N) : Prop := p <> 0 /\ exists i, P s i = p.
(** the thread that called execve, its own id being given up *)
Definition replaced (c : cfg) (s : st) (i : nat) (p : N) : Prop :=
  c_os3 c = true /\ Z.of_N p = wmsg (wtab (qu s) (widx (qu s) i)) /\ p <> P s i /\ p <> 0 /\ p < 2147483648.
(** what a handled event does to the set of traced processes *)
Definition change (c : cfg) (s : st) (i : nat) (wd : wdata) (s' : st) : Prop :=
  match te wd with
  | TE_EXITED | TE_SIGNALLED => forall p, traced s' p <-> traced s p /\ p <> P s i
  | TE_STOP_BEFORE_EXECVE =>
      (forall p, p <> P s i -> (traced s' p <-> traced s p /\ ~ replaced c s i p)) /\ (c_detexec c = false -> traced s' (P s i))
  | _ => forall p, traced s' p <-> traced s p
  end.
Definition busy (wd : wdata) : bool := match te wd with TE_BREAK | TE_NEXT => false | _ => true end.
(** the processes traced after the start: the command, those that could be attached to and their
    threads *)
Definition targets (ps : list N) (cmd : option (N * bool)) (ans : nat -> bool * list N) (p : N) : Prop :=
  (exists b, cmd = Some (p, b)) \/ exists k t, nth_error ps k = Some t /\ fst (ans k) = true /\ (p = t \/ In p (snd (ans k))).

(** ** Events (C27) *)
(** the events that wait in the queue, with the lives of their tracees, in order *)
Definition queued (s : st) : list (nat * wdata) :=
  map (fun i => (gen (lg s) i, wtab (qu s) (widx (qu s) i))) (pending (qu s)) ++
  match extra (qu s) with Some (i, idx) => [(gen (lg s) i, wtab (qu s) idx)] | None => [] end.
(** the answers of wait4 up to an error *)
Definition answers (ws : list nwait) : list (N * N) :=
  (fix go ws := match ws with [] => [] | NErr _ :: _ => [] | NPid p st _ _ :: r => (p, st) :: go r end) ws.
(** the event is of the process and has the status *)
Definition matches (s : st) (x : nat * wdata) (y : N * N) : Prop := wstatus (snd x) = snd y /\ exists i, gen (lg s) i = fst x /\ P s i = fst y.
(** strace was not told to stop *)
Definition running (s : st) (n : nenv) : bool := (n_intr n =? 0) && (intr s =? 0) && negb (limit s =? 0)%Z.

(** ** What is asked of a run, besides what wait4 and ptrace answer *)
(** a second event that was collected for a tracee is not for one that was dropped since *)
Definition held (s : st) : Prop := match extra (qu s) with Some (i, _) => P s i <> 0 | None => True end.
(** the thread whose execve is being reported has no event of its own waiting *)
Definition undisturbed (c : cfg) (s : st) (i : nat) : Prop :=
  c_detexec c = true -> forall j, In j (pending (qu s)) -> Z.of_N (P s j) <> wmsg (wtab (qu s) (widx (qu s) i)).
(** the kernel reports an execve by another thread only after the events of that thread *)
Definition exec_alone (c : cfg) (s : st) (ne : nenv * denv) : Prop :=
  match next_event c s (fst ne) with
  | Ok (Some wd, s1) => te wd = TE_STOP_BEFORE_EXECVE -> forall i, current (lg s1) = Some i -> undisturbed c s1 i
  | _ => True
  end.
Fixpoint fair (c : cfg) (s : st) (l : list (nenv * denv)) : Prop :=
  match l with
  | [] => True
  | ne :: r => held s /\ exec_alone c s ne /\ match turn c s ne with Ok (true, s') => fair c s' r | _ => True end
  end.
(** the processes to trace are different *)
Record distinct_targets (ps : list N) (cmd : option (N * bool)) (ans : nat -> bool * list N) : Prop := {
  d_ps : NoDup ps; d_pz : ~ In 0 ps;
  d_cmd : forall p b, cmd = Some (p, b) -> p <> 0 /\ ~ In p ps;
  d_tids : forall i, NoDup (snd (ans i));
  d_new : forall i t, In t (snd (ans i)) -> t <> 0 /\ ~ In t ps /\ forall b, cmd <> Some (t, b);
  d_once : forall i j t, In t (snd (ans i)) -> In t (snd (ans j)) -> i = j }.
(** what an execve event of tcb i says *)
Definition switches (s : st) (i : nat) : Prop :=
  let old := wmsg (wtab (qu s) (widx (qu s) i)) in (0 < old)%Z /\ old <> Z.of_N (P s i).
(** a leader that is replaced by another of its threads is not in the middle of a line *)
Definition calm (s : st) (w : option wdata) : Prop :=
  match w with
  | Some wd => te wd = TE_STOP_BEFORE_EXECVE -> forall i, current (lg s) = Some i -> switches s i -> col (lg s) i = 0
  | None => True
  end.
Definition calm_turn (c : cfg) (s : st) (ne : nenv * denv) : Prop :=
  match next_event c s (fst ne) with Ok (w, s1) => calm s1 w | _ => True end.
Fixpoint orderly (c : cfg) (s : st) (l : list (nenv * denv)) : Prop :=
  match l with
  | [] => True
  | ne :: r => held s /\ calm_turn c s ne /\ match turn c s ne with Ok (true, s') => orderly c s' r | _ => True end
  end.

(** ** Runs *)
(** [s] is reached from the start by turns of the loop; [b]: the loop goes on *)
Definition reached (c : cfg) (ps : list N) (cmd : option (N * bool)) (s : st) : Prop :=
  exists ch po li ans s0 l b, distinct_targets ps cmd ans /\ startup c (st0 ch po li) ps cmd ans = Ok s0 /\ fair c s0 l /\ turns c s0 l = Ok (b, s).
(** the same where no leader is replaced in the middle of its line *)
Definition reached_calm (c : cfg) (ps : list N) (cmd : option (N * bool)) (s : st) : Prop :=
  exists ch po li ans s0 l b, distinct_targets ps cmd ans /\ startup c (st0 ch po li) ps cmd ans = Ok s0 /\ orderly c s0 l /\ turns c s0 l = Ok (b, s).

(** ** Signals (C26) *)
(** the signal that the tracee must get when it goes on after the stop *)
Definition due (c : cfg) (wd : wdata) : N :=
  match te wd with
  | TE_SIGNAL_DELIVERY_STOP => WSTOPSIG (wstatus wd)
  | TE_GROUP_STOP => if c_seize c then 0 else WSTOPSIG (wstatus wd)   (* told from a signal only by PTRACE_SEIZE *)
  | _ => 0
  end.
(** a request to go on *)
Definition is_restart (o : op) : bool := match o with OP_SYSCALL | OP_CONT | OP_LISTEN => true | _ => false end.
(** the call could not be read *)
Definition unread (e : denv) : Prop := (e_scno e < 0 \/ e_args e < 0 \/ x_res e < 0)%Z.
(** in going from [s] to [s'] strace asked tracee [i] once to go on with signal [sig], or it left it
    stopped since it was told to stop itself, or for the delay that was asked for *)
Definition goes_on (s : st) (i : nat) (p : N) (listen : bool) (sig : N) (s' : st) : Prop :=
  (exists o, reqs s' = reqs s ++ [{| r_gen := gen (lg s) i; r_op := o; r_pid := p; r_sig := sig |}] /\ is_restart o = true /\ (o = OP_LISTEN <-> listen = true) /\ fl s' i DELAYED = false) \/
  (reqs s' = reqs s /\ (intr s' <> 0 \/ fl s' i DELAYED = true)).
(** the signals, other than none, that a tracee was sent on with *)
Definition passed (g : nat) (l : list req) : list N :=
  filter (fun x => negb (x =? 0)) (map r_sig (filter (fun r => Nat.eqb (r_gen r) g && is_restart (r_op r)) l)).
(** those it was stopped by *)
Definition stopped_by (c : cfg) (g : nat) (l : list (nat * wdata)) : list N := filter (fun x => negb (x =? 0)) (map (due c) (of g l)).
(** a tracee that is kept stopped for a delay is not stopped by a signal *)
Fixpoint awake (c : cfg) (s : st) (l : list (nenv * denv)) : Prop :=
  match l with
  | [] => True
  | ne :: r =>
      match next_event c s (fst ne) with
      | Ok (Some wd, s1) => due c wd <> 0 -> forall i, current (lg s1) = Some i -> fl s1 i DELAYED = false
      | _ => True
      end /\ match turn c s ne with Ok (true, s') => awake c s' r | _ => True end
  end.

(** ** Delays (C31) *)
(** the delay that is asked for the system call that tracee [i] stops at: its length, and the clock
    as it is read before and after *)
Definition asked (s : st) (i : nat) (e : denv) : option (ts * ts * ts) :=
  if fl s i INSYSCALL then if fl s i INJECT_DELAY_EXIT then Some (x_delay e) else None else e_delay e.

(** ** The end of the command (C29) *)
(** what a wait status says of the end of a process: its exit code, or 256 plus the signal *)
Definition fate (st : N) : option N :=
  if WIFSIGNALED st then Some (256 + WTERMSIG st) else if WIFEXITED st then Some (WEXITSTATUS st) else None.
(** the first status handled in the run that ends process [p] *)
Fixpoint command_end (c : cfg) (p : N) (s : st) (l : list (nenv * denv)) : option N :=
  match l with
  | [] => None
  | ne :: r =>
      match next_event c s (fst ne) with
      | Ok (Some wd, s1) =>
          match (if match current (lg s1) with Some i => busy wd && (P s1 i =? p) | None => false end then fate (wstatus wd) else None) with
          | Some x => Some x
          | None => match turn c s ne with Ok (true, s') => command_end c p s' r | _ => None end
          end
      | _ => None
      end
  end.
(** no request to go on fails, but for tracees that are gone *)
Definition works (e : denv) : Prop := e_err e = 0 \/ e_err e = ESRCH.
Definition no_failure (ne : nenv * denv) : Prop :=
  works (snd ne) /\ match n_timer (fst ne) with Some (_, es) => forall k, works (es k) | None => True end.
(** how a process ended *)
Definition ended_by (x : N) : ending := if x <? 256 then Exits x else KilledBy (x - 256).
