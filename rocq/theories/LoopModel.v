(** Model of the event loop: src/strace.c:597-628, 1050-1074, 1107-1351, 1385-1526, 3252-4270,
    src/syscall.c:580-740, 787-880, 1031-1045, src/delay.c:72-137.
    The tracees, the kernel, the decoders, the user's signals and the clock are the environment:
    what they answer is given as input ([denv], [nwait], ...), so that a statement about all
    inputs is a statement about all of their behaviours.
    Not modelled here: -c counting, secontext, stack unwinding, personalities, messages on
    stderr, the popen'ed logger beyond its pid; flags of fault injection other than those of
    delays (see InjectModel). *)
From Verif Require Import Base TimeModel WaitModel TcbModel LogModel.
Local Open Scope N_scope.

(** ** State *)
(** src/defs.h:343-379, the flags that matter here *)
Inductive flag := STARTUP | IGNORE_ONE_SIGSTOP | INSYSCALL | ATTACHED | REPRINT | FILTERED | HIDE_LOG | CHECK_EXEC_SYSCALL
  | SKIP_DETACH_ON_FIRST_EXEC | GRABBED | INJECT_DELAY_EXIT | DELAYED | SECCOMP_FILTER.
Definition flag_eqb (a b : flag) : bool :=
  match a, b with
  | STARTUP, STARTUP | IGNORE_ONE_SIGSTOP, IGNORE_ONE_SIGSTOP | INSYSCALL, INSYSCALL | ATTACHED, ATTACHED | REPRINT, REPRINT
  | FILTERED, FILTERED | HIDE_LOG, HIDE_LOG | CHECK_EXEC_SYSCALL, CHECK_EXEC_SYSCALL
  | SKIP_DETACH_ON_FIRST_EXEC, SKIP_DETACH_ON_FIRST_EXEC | GRABBED, GRABBED | INJECT_DELAY_EXIT, INJECT_DELAY_EXIT
  | DELAYED, DELAYED | SECCOMP_FILTER, SECCOMP_FILTER => true
  | _, _ => false
  end.

(** src/trace_event.h:13-84 *)
Inductive tevent := TE_BREAK | TE_NEXT | TE_RESTART | TE_SYSCALL_STOP | TE_SIGNAL_DELIVERY_STOP | TE_SIGNALLED | TE_GROUP_STOP
  | TE_EXITED | TE_STOP_BEFORE_EXECVE | TE_STOP_BEFORE_EXIT | TE_SECCOMP.
(** src/strace.c:172-177 (struct tcb_wait_data); the siginfo is left out *)
Record wdata := { te : tevent; wstatus : N; wmsg : Z }.
Definition wdata0 : wdata := {| te := TE_BREAK; wstatus := 0; wmsg := 0 |}.

(** what strace asks of the kernel about its tracees *)
Inductive op := OP_SYSCALL | OP_CONT | OP_LISTEN | OP_DETACH | OP_INTERRUPT | OP_TKILL.
Record req := { r_gen : nat; r_op : op; r_pid : N; r_sig : N }.

(** pending_tcps, extra_tcp with wait_extra_data_idx, tcb_wait_tab, and wait_data_idx per tcb.
    Ghosts: [coll], what wait4 told about each tcb; [disp], what was handed to dispatch_event.
    Simplified: tcb_wait_tab is as large as needed (see C53 for its growth). *)
Record queue := { pending : list nat; extra : option (nat * nat); wtab : nat -> wdata; widx : nat -> nat;
  coll : list (nat * wdata); disp : list (nat * wdata) }.
(** per tcb: delay_expiration_time, delayed_wait_data; the timer of src/delay.c:20-21 *)
Record delays := { expiry : nat -> ts; dwd : nat -> option wdata; created : bool; armed : bool; timer_at : ts }.

Record st := {
  tb : tab; lg : log; fl : nat -> flag -> bool;
  sname : nat -> list N;    (* name of the current system call of a tcb *)
  dec : nat -> bool;        (* sys_func_rval & RVAL_DECODED *)
  qu : queue; dl : delays;
  child : N; popen : N; intr : N; rfail : bool; exitc : N; limit : Z;
  reqs : list req;                    (* ghost: requests made, oldest first *)
  calls : list (nat * bool)           (* ghost: decoder runs per life of a tcb, true for entry *)
}.

Definition with_tb (s : st) (x : tab) : st := {| tb := x; lg := lg s; fl := fl s; sname := sname s; dec := dec s; qu := qu s; dl := dl s; child := child s; popen := popen s; intr := intr s; rfail := rfail s; exitc := exitc s; limit := limit s; reqs := reqs s; calls := calls s |}.
Definition with_lg (s : st) (x : log) : st := {| tb := tb s; lg := x; fl := fl s; sname := sname s; dec := dec s; qu := qu s; dl := dl s; child := child s; popen := popen s; intr := intr s; rfail := rfail s; exitc := exitc s; limit := limit s; reqs := reqs s; calls := calls s |}.
Definition with_fl (s : st) (x : nat -> flag -> bool) : st := {| tb := tb s; lg := lg s; fl := x; sname := sname s; dec := dec s; qu := qu s; dl := dl s; child := child s; popen := popen s; intr := intr s; rfail := rfail s; exitc := exitc s; limit := limit s; reqs := reqs s; calls := calls s |}.
Definition with_name (s : st) (i : nat) (n : list N) : st := {| tb := tb s; lg := lg s; fl := fl s; sname := fun j => if Nat.eqb j i then n else sname s j; dec := dec s; qu := qu s; dl := dl s; child := child s; popen := popen s; intr := intr s; rfail := rfail s; exitc := exitc s; limit := limit s; reqs := reqs s; calls := calls s |}.
Definition with_dec (s : st) (i : nat) (b : bool) : st := {| tb := tb s; lg := lg s; fl := fl s; sname := sname s; dec := fun j => if Nat.eqb j i then b else dec s j; qu := qu s; dl := dl s; child := child s; popen := popen s; intr := intr s; rfail := rfail s; exitc := exitc s; limit := limit s; reqs := reqs s; calls := calls s |}.
Definition with_qu (s : st) (x : queue) : st := {| tb := tb s; lg := lg s; fl := fl s; sname := sname s; dec := dec s; qu := x; dl := dl s; child := child s; popen := popen s; intr := intr s; rfail := rfail s; exitc := exitc s; limit := limit s; reqs := reqs s; calls := calls s |}.
Definition with_dl (s : st) (x : delays) : st := {| tb := tb s; lg := lg s; fl := fl s; sname := sname s; dec := dec s; qu := qu s; dl := x; child := child s; popen := popen s; intr := intr s; rfail := rfail s; exitc := exitc s; limit := limit s; reqs := reqs s; calls := calls s |}.
(** strace_child, popen_pid, interrupted, restart_failed, exit_code, syscall_limit *)
Definition with_glob (s : st) (ch po it : N) (rf : bool) (ec : N) (li : Z) : st := {| tb := tb s; lg := lg s; fl := fl s; sname := sname s; dec := dec s; qu := qu s; dl := dl s; child := ch; popen := po; intr := it; rfail := rf; exitc := ec; limit := li; reqs := reqs s; calls := calls s |}.
Definition set_child (s : st) (x : N) : st := with_glob s x (popen s) (intr s) (rfail s) (exitc s) (limit s).
Definition set_popen (s : st) (x : N) : st := with_glob s (child s) x (intr s) (rfail s) (exitc s) (limit s).
Definition set_intr (s : st) (x : N) : st := with_glob s (child s) (popen s) x (rfail s) (exitc s) (limit s).
Definition set_rfail (s : st) : st := with_glob s (child s) (popen s) (intr s) true (exitc s) (limit s).
Definition set_exit (s : st) (x : N) : st := with_glob s (child s) (popen s) (intr s) (rfail s) x (limit s).
Definition set_limit (s : st) (x : Z) : st := with_glob s (child s) (popen s) (intr s) (rfail s) (exitc s) x.
Definition ask (s : st) (i : nat) (o : op) (sig : N) : st := {| tb := tb s; lg := lg s; fl := fl s; sname := sname s; dec := dec s; qu := qu s; dl := dl s; child := child s; popen := popen s; intr := intr s; rfail := rfail s; exitc := exitc s; limit := limit s;
  reqs := reqs s ++ [{| r_gen := gen (lg s) i; r_op := o; r_pid := pidof (tb s) i; r_sig := sig |}]; calls := calls s |}.
Definition called (s : st) (i : nat) (entry : bool) : st := {| tb := tb s; lg := lg s; fl := fl s; sname := sname s; dec := dec s; qu := qu s; dl := dl s; child := child s; popen := popen s; intr := intr s; rfail := rfail s; exitc := exitc s; limit := limit s; reqs := reqs s;
  calls := calls s ++ [(gen (lg s) i, entry)] |}.

Definition setf (s : st) (i : nat) (f : flag) (b : bool) : st :=
  with_fl s (fun j g => if Nat.eqb j i && flag_eqb g f then b else fl s j g).
Definition P (s : st) : nat -> N := pidof (tb s).
Definition NP (s : st) : N := nprocs (tb s).

(** ** Options *)
Record cfg := {
  lc : lcfg;
  c_stats : bool;       (* cflag == CFLAG_ONLY_STATS *)
  c_seize : bool;       (* use_seize *)
  c_follow : bool;      (* followfork *)
  c_detexec : bool;     (* detach_on_execve *)
  c_qexit : bool;       (* QUIET_EXIT *)
  c_qthread : bool;     (* QUIET_THREAD_EXECVE *)
  c_sigs : N -> bool;   (* signal_set *)
  c_secbefore : bool;   (* seccomp_before_sysentry *)
  c_os3 : bool;         (* os_release >= 3.0.0 *)
  c_trapsig : N;        (* syscall_trap_sig *)
  c_signame : N -> list N   (* sprintsigname, see C55 *)
}.
Definition SIGTRAP : N := 5.
Definition SIGSTOP : N := 19.
Definition SIGTSTP : N := 20.
Definition SIGTTIN : N := 21.
Definition SIGTTOU : N := 22.
Definition ESRCH : N := 3.
Definition EINTR : N := 4.
Definition ECHILD : N := 10.
(** PTRACE_EVENT_* of linux/ptrace.h *)
Definition EV_EXEC : N := 4.
Definition EV_EXIT : N := 6.
Definition EV_SECCOMP : N := 7.
Definition EV_STOP : N := 128.

(** ** Printing through the state *)
Definition pr (s : st) (f : log -> res log) : res st := rlet l := f (lg s) in Ok (with_lg s l).
Definition leader (c : cfg) (s : st) (i : nat) : res st := pr s (fun l => printleader (P s) (lc c) (NP s) l i).
Definition tpr (s : st) (xs : list tok) : res st := pr s (fun l => tprints (P s) l xs).
Definition end_line (s : st) : st := with_lg s (line_ended (lg s)).
Definition message (c : cfg) (s : st) (i : nat) (t extra : list N) : res st := pr s (fun l => msg_line (P s) (lc c) (NP s) l i t extra).

(** src/strace.c:597-628.  [err]: errno of ptrace, 0 for success.  First result: succeeded *)
Definition ptrace_restart (o : op) (s : st) (i : nat) (sig err : N) : res (bool * st) :=
  let s := ask s i o sig in
  if (err =? 0) || (err =? ESRCH) then Ok (true, s)
  else
    rlet s := match current (lg s) with
              | Some j => if col (lg s) j =? 0 then Ok s
                          else rlet s := tpr s [NoRestart (bs "Cannot restart"); Nl []] in Ok (end_line s)
              | None => Ok s
              end in
    Ok (false, s).

(** src/strace.c:1048-1074 *)
Definition new_tcb (s : st) (pid : N) : res (nat * st) :=
  rlet (t, i) := alloctcb (tb s) pid in
  let q := qu s in
  Ok (i, with_dec (with_name (with_qu (with_dl (with_fl (with_lg (with_tb s t) (alloc_log (lg s) i)) (fun j g => if Nat.eqb j i then false else fl s j g))
        {| expiry := expiry (dl s); dwd := fun j => if Nat.eqb j i then None else dwd (dl s) j; created := created (dl s); armed := armed (dl s); timer_at := timer_at (dl s) |})
        {| pending := pending q; extra := extra q; wtab := wtab q; widx := fun j => if Nat.eqb j i then O else widx q j; coll := coll q; disp := disp q |}) i []) i false).

(** src/strace.c:963-978 *)
Definition attached (c : cfg) (s : st) (i : nat) (fs : list flag) : st :=
  let s := setf (setf s i ATTACHED true) i STARTUP true in
  let s := fold_left (fun s f => setf s i f true) fs s in
  with_lg s (attach_log (P s) (lc c) (lg s) i).

(** src/strace.c:1107-1167: list_remove, and memset *)
Definition droptcb (c : cfg) (s : st) (i : nat) : res st :=
  if P s i =? 0 then Ok s
  else
    rlet s := pr s (fun l => drop_log (P s) (lc c) l i) in
    let q := qu s in
    Ok (with_dec (with_name (with_qu (with_dl (with_fl (with_tb s (drop_slot (tb s) i)) (fun j g => if Nat.eqb j i then false else fl s j g))
        {| expiry := expiry (dl s); dwd := fun j => if Nat.eqb j i then None else dwd (dl s) j; created := created (dl s); armed := armed (dl s); timer_at := timer_at (dl s) |})
        {| pending := filter (fun j => negb (Nat.eqb j i)) (pending q); extra := extra q; wtab := wtab q; widx := fun j => if Nat.eqb j i then O else widx q j; coll := coll q; disp := disp q |}) i []) i false).

(** ** Detaching *)
(** src/strace.c:1180-1242.  Answers: errno of PTRACE_DETACH, of tkill(pid, 0), of the request to stop *)
Record detans := { a_detach : N; a_alive : N; a_stop : N }.
Definition detach_or_interrupt_or_stop (c : cfg) (s : st) (i : nat) (a : detans) : bool * st :=
  if negb (fl s i ATTACHED) then (false, s)
  else if fl s i IGNORE_ONE_SIGSTOP then (true, s)
  else
    let s := ask s i OP_DETACH 0 in
    if a_detach a =? 0 then (false, s)
    else if negb (a_detach a =? ESRCH) then (false, s)
    else
      if negb (a_alive a =? 0) then (false, s)
      else if c_seize c then (a_stop a =? 0, ask s i OP_INTERRUPT 0)
      else (a_stop a =? 0, ask s i OP_TKILL SIGSTOP).

(** src/strace.c:1244-1312.  First result: the tracee can be passed to droptcb *)
Definition detach_interrupted_or_stopped (c : cfg) (s : st) (i : nat) (status err : N) : res (bool * st) :=
  if negb (WIFSTOPPED status) then Ok (true, s)
  else
    let sig := WSTOPSIG status in
    if c_seize c then
      let event := N.shiftr status 16 in
      let sig := if event =? EV_STOP then 0 else sig in
      let sig := if sig =? c_trapsig c then 0 else sig in
      rlet (_, s) := ptrace_restart OP_DETACH s i sig err in Ok (true, s)
    else if sig =? SIGSTOP then rlet (_, s) := ptrace_restart OP_DETACH s i 0 err in Ok (true, s)
    else
      let sig := if sig =? c_trapsig c then 0 else sig in
      rlet (ok, s) := ptrace_restart OP_CONT s i sig err in
      Ok (negb ok, s).

(** src/strace.c:1319-1350.  [ws]: answers of waitpid for the tracee: an error (true for EINTR),
    or a status, with the errno of the following restart.  An exhausted list stands for an error. *)
Inductive dwait := DErr (eintr : bool) | DStatus (status err : N).
Fixpoint detach_wait (c : cfg) (s : st) (i : nat) (ws : list dwait) : res st :=
  match ws with
  | [] => Ok s
  | DErr true :: r => detach_wait c s i r
  | DErr false :: _ => Ok s
  | DStatus status err :: r =>
      rlet (done, s) := detach_interrupted_or_stopped c s i status err in
      if done then Ok s else detach_wait c s i r
  end.
Definition detach (c : cfg) (s : st) (i : nat) (a : detans) (ws : list dwait) : res st :=
  let (wait, s) := detach_or_interrupt_or_stop c s i a in
  rlet s := (if wait then detach_wait c s i ws else Ok s) in
  droptcb c s i.

(** ** Delays *)
(** src/delay.c:72-89 *)
Definition arm_delay_timer (s : st) (i : nat) : st :=
  with_dl s {| expiry := expiry (dl s); dwd := dwd (dl s); created := true; armed := true; timer_at := expiry (dl s) i |}.
(** timer_gettime: time left of a one-shot timer, 0 when it has fired *)
Definition time_left (d : delays) (now : ts) : ts :=
  if (ts_cmp (timer_at d) now <=? 0)%Z then {| sec := 0; nsec := 0 |} else ts_sub (timer_at d) now.
(** src/delay.c:92-137.  [now], [now']: the clock when clock_gettime and timer_gettime read it *)
Definition delay_tcb (s : st) (i : nat) (diff now now' : ts) : st :=
  let s := setf s i DELAYED true in
  let s := with_dl s {| expiry := fun j => if Nat.eqb j i then ts_add now diff else expiry (dl s) j; dwd := dwd (dl s);
                        created := created (dl s); armed := armed (dl s); timer_at := timer_at (dl s) |} in
  if created (dl s) && ts_nz (time_left (dl s) now') && (0 <? ts_cmp diff (time_left (dl s) now'))%Z then s
  else arm_delay_timer s i.

(** ** System calls *)
(** What decoding a system call does, besides what is modelled elsewhere. *)
Record denv := {
  e_scno : Z;            (* result of get_scno *)
  e_args : Z;            (* of get_syscall_args *)
  e_name : list N;       (* name found by get_scno; "????" if it failed *)
  e_exec : bool;         (* the call is an execve, execveat or execv *)
  e_traced : bool;       (* traced(tcp), and pathtrace_match if that is used *)
  e_sig : N;             (* signal injected, 0 for none *)
  e_delay : option (ts * ts * ts);    (* delay injected on entering: length, clock readings *)
  e_xdelay : bool;       (* delay_exit injected *)
  e_text : list N;       (* text of the arguments *)
  e_dec : bool;          (* result of the decoder has RVAL_DECODED *)
  x_res : Z;             (* result of get_syscall_result *)
  x_delay : ts * ts * ts;             (* delay on exiting *)
  x_err : bool;          (* syserror *)
  x_text : list N;       (* text of the decoder on exiting *)
  x_ret : list N;        (* what follows ") = " *)
  x_extra : list N;      (* dumps and stack trace *)
  e_sec : bool;          (* the call is traced by the seccomp filter *)
  e_stopmsg : list N;    (* the text of a signal line *)
  e_err : N;             (* errno of the restart *)
  e_det : detans; e_waits : list dwait;   (* for -b execve *)
  e_intr : N             (* signal that strace caught, 0 for none *)
}.

(** src/syscall.c:580-617 *)
Definition syscall_entering_decode (c : cfg) (s : st) (i : nat) (e : denv) : res (Z * st) :=
  let s := with_name s i (if (e_scno e =? 1)%Z then e_name e else bs "????") in
  if (e_scno e =? 0)%Z then Ok (0%Z, s)
  else
    let rc := if (e_scno e =? 1)%Z then e_args e else e_scno e in
    if (rc =? 1)%Z then Ok (1%Z, s)
    else rlet s := leader c s i in rlet s := tpr s [Entry (sname s i)] in Ok (rc, s).

(** src/syscall.c:619-675; results: RVAL_DECODED of the result, injected signal.  The value
    returned is not negative. *)
Definition syscall_entering_trace (c : cfg) (s : st) (i : nat) (recovering : bool) (e : denv) : res (bool * N * st) :=
  let hide := fl s i HIDE_LOG in
  let s := if hide && e_exec e then setf (setf s i HIDE_LOG false) i CHECK_EXEC_SYSCALL true else s in
  if fl s i HIDE_LOG || negb (e_traced e) then Ok (false, 0, setf s i FILTERED true)
  else
    let s := setf s i FILTERED false in
    let inj := negb hide && negb recovering in
    let sig := if inj then e_sig e else 0 in
    let s := if inj then
               let s := match e_delay e with Some (diff, now, now') => delay_tcb s i diff now now' | None => s end in
               if e_xdelay e then setf s i INJECT_DELAY_EXIT true else s
             else s in
    if c_stats c then Ok (false, sig, s)
    else
      let s := if c_all (lc c) then s else with_lg s (open_memstream (lg s) i) in
      rlet s := leader c s i in
      rlet s := tpr s [Entry (sname s i); Txt (e_text e)] in
      Ok (e_dec e, sig, s).

(** src/syscall.c:678-702 *)
Definition syscall_entering_finish (s : st) (i : nat) (decoded : bool) : st :=
  called (with_dec (setf s i INSYSCALL true) i decoded) i true.

(** src/syscall.c:714-741 *)
Definition syscall_exiting_decode (s : st) (i : nat) (e : denv) : Z * st :=
  if fl s i FILTERED then (0%Z, s)
  else (x_res e, if fl s i CHECK_EXEC_SYSCALL then setf s i HIDE_LOG true else s).

(** src/syscall.c:787-1028.  [rc] is not 0. *)
Definition syscall_exiting_trace (c : cfg) (s : st) (i : nat) (rc : Z) (e : denv) : res (Z * st) :=
  let s := if fl s i INJECT_DELAY_EXIT then let '(diff, now, now') := x_delay e in delay_tcb s i diff now now' else s in
  rlet s := (if c_stats c then Ok s
             else rlet (r, l) := print_syscall_resume (P s) (lc c) (NP s) (lg s) i (fl s i REPRINT) (sname s i) in
                  let s := with_lg s l in Ok (if r then setf s i REPRINT false else s)) in
  if negb (rc =? 1)%Z then
    if c_stats c then Ok (rc, s)
    else
      rlet s := tpr s [Ret (bs "? <unavailable>"); Nl []] in
      rlet s := (if c_all (lc c) then Ok s else pr s (fun l => close_memstream l i (c_unavail (lc c)))) in
      Ok (rc, end_line s)
  else
    rlet s := (if c_stats c || dec s i then Ok s else tpr s [Txt (x_text e)]) in
    let publish := c_all (lc c) || (if x_err e then c_failed (lc c) else c_succ (lc c)) in
    rlet s := (if c_all (lc c) || c_stats c then Ok s else pr s (fun l => close_memstream l i publish)) in
    if negb publish then Ok (0%Z, if c_stats c then s else end_line s)
    else
      let s := if (limit s =? -1)%Z then s else set_limit s (limit s - 1) in
      if c_stats c then Ok (0%Z, s)
      else
        rlet s := tpr s [Ret (x_ret e); Nl (x_extra e)] in
        Ok (0%Z, end_line s).

(** src/syscall.c:1031-1045 *)
Definition syscall_exiting_finish (s : st) (i : nat) : st :=
  called (with_dec (setf (setf s i INSYSCALL false) i INJECT_DELAY_EXIT false) i false) i false.

(** src/strace.c:3925-3948; results: value, injected signal *)
Definition trace_syscall (c : cfg) (s : st) (i : nat) (recovering : bool) (e : denv) : res (Z * N * st) :=
  if negb (fl s i INSYSCALL) then
    rlet (r, s) := syscall_entering_decode c s i e in
    if (r =? 0)%Z then Ok (0%Z, 0, s)
    else if (r =? 1)%Z then
      rlet (d, sig, s) := syscall_entering_trace c s i recovering e in
      Ok (0%Z, sig, syscall_entering_finish s i d)
    else Ok (r, 0, syscall_entering_finish s i (Z.testbit r 6))
  else
    let (r, s) := syscall_exiting_decode s i e in
    rlet (r, s) := (if (r =? 0)%Z then Ok (0%Z, s) else syscall_exiting_trace c s i r e) in
    Ok (r, 0, syscall_exiting_finish s i).

(** ** Events *)
(** src/strace.c:3375-3445 *)
Definition maybe_switch_tcbs (c : cfg) (s : st) (i : nat) : res (option nat * st) :=
  let pid := P s i in
  if negb (c_os3 c) then Ok (None, s)
  else
    let old := wmsg (wtab (qu s) (widx (qu s) i)) in
    if (old <=? 0)%Z || (old =? Z.of_N pid)%Z then Ok (None, s)
    else if (4294967295 <? old)%Z then Ok (None, s)
    else
      let (t, r) := pid2tcb (tb s) (if (2147483648 <=? old)%Z then old - 4294967296 else old) in
      let s := with_tb s t in
      match r with
      | None => Ok (None, s)
      | Some j =>
          rlet s := pr s (fun l => switch_files (P s) l i j pid) in
          rlet s := droptcb c s i in
          let s := with_tb s (rename (tb s) j pid) in
          rlet s := (if c_stats c then Ok s
                     else
                       rlet s := (if c_qthread c then Ok s
                                  else message c s j (bs "+++ superseded by execve in pid " ++ Printf.pr_num 10 (Z.to_N old) ++ bs " +++") []) in
                       let s := if c_all (lc c) then s else with_lg s (open_memstream (lg s) j) in
                       Ok (setf s j REPRINT true)) in
          Ok (Some j, s)
      end.
(** src/strace.c:3447-3456 *)
Definition maybe_switch_current_tcp (c : cfg) (s : st) (i : nat) : res (option nat * st) :=
  rlet (r, s) := maybe_switch_tcbs c s i in
  match r with
  | Some j => Ok (r, with_lg s (set_current (lg s) (Some j)))
  | None => Ok (r, s)
  end.

(** src/strace.c:3458-3475, 3477-3492 *)
Definition print_signalled (c : cfg) (s : st) (i : nat) (status : N) : res st :=
  let s := if P s i =? child s then set_child (set_exit s (N.lor 0x100 (WTERMSIG status))) 0 else s in
  if negb (c_stats c) && c_sigs c (WTERMSIG status)
  then message c s i (bs "+++ killed by " ++ c_signame c (WTERMSIG status) ++ bs " " ++ (if WCOREDUMP status then bs "(core dumped) " else []) ++ bs "+++") []
  else Ok s.
Definition print_exited (c : cfg) (s : st) (i : nat) (status : N) : res st :=
  let s := if P s i =? child s then set_child (set_exit s (WEXITSTATUS status)) 0 else s in
  if negb (c_stats c) && negb (c_qexit c)
  then message c s i (bs "+++ exited with " ++ Printf.pr_num 10 (WEXITSTATUS status) ++ bs " +++") []
  else Ok s.
(** src/strace.c:3494-3515 *)
Definition print_stopped (c : cfg) (s : st) (i : nat) (sig : N) (e : denv) : res st :=
  if negb (c_stats c) && negb (fl s i HIDE_LOG) && c_sigs c sig then message c s i (e_stopmsg e) (x_extra e) else Ok s.
(** src/strace.c:3551-3593 *)
Definition exit_event (c : cfg) (s : st) (i : nat) : res st :=
  if negb (fl s i INSYSCALL) || fl s i FILTERED || fl s i HIDE_LOG || c_stats c then Ok s
  else
    rlet (r, l) := print_event_exit (P s) (lc c) (NP s) (lg s) i (fl s i REPRINT) (dec s i) (sname s i) in
    let s := with_lg s l in Ok (if r then setf s i REPRINT false else s).

(** src/filter_seccomp.c:698-705 *)
Definition seccomp_op (s : st) (i : nat) (e : denv) : op := if fl s i INSYSCALL && e_sec e then OP_SYSCALL else OP_CONT.

(** What follows a stop that is handled: src/strace.c:4124-4145 *)
Definition resume (s : st) (i : nat) (wd : wdata) (o : op) (sig : N) (e : denv) : res (bool * st) :=
  let s := if e_intr e =? 0 then s else set_intr s (e_intr e) in
  if negb (intr s =? 0) then Ok (false, s)
  else if fl s i DELAYED then
    Ok (true, with_dl s {| expiry := expiry (dl s); dwd := fun j => if Nat.eqb j i then Some wd else dwd (dl s) j; created := created (dl s); armed := armed (dl s); timer_at := timer_at (dl s) |})
  else
    rlet (ok, s) := ptrace_restart o s i sig (e_err e) in
    if ok then Ok (true, s) else Ok (false, set_exit s 1).

(** src/strace.c:3950-4145.  current_tcp must not be NULL except for TE_BREAK and TE_NEXT. *)
Definition dispatch_event (c : cfg) (s : st) (w : option wdata) (e : denv) : res (bool * st) :=
  match w with
  | None => Ok (false, s)
  | Some wd =>
    match te wd with
    | TE_BREAK => Ok (false, s)
    | TE_NEXT => Ok (true, s)
    | _ =>
      match current (lg s) with
      | None => Undef
      | Some i =>
        let op0 := if fl s i SECCOMP_FILTER then seccomp_op s i e else OP_SYSCALL in
        let syscall_stop :=
          rlet (r, sig, s) := trace_syscall c s i false e in
          if (r <? 0)%Z then Ok (true, s)
          else resume s i wd (if fl s i SECCOMP_FILTER then if fl s i INSYSCALL then OP_SYSCALL else OP_CONT else op0) sig e in
        match te wd with
        | TE_BREAK | TE_NEXT => Undef
        | TE_RESTART => resume s i wd op0 0 e
        | TE_SECCOMP =>
            if negb (fl s i SECCOMP_FILTER) then resume (setf s i SECCOMP_FILTER true) i wd OP_SYSCALL 0 e
            else if c_secbefore c then resume s i wd OP_SYSCALL 0 e
            else syscall_stop
        | TE_SYSCALL_STOP => syscall_stop
        | TE_SIGNAL_DELIVERY_STOP =>
            rlet s := print_stopped c s i (WSTOPSIG (wstatus wd)) e in
            resume s i wd op0 (WSTOPSIG (wstatus wd)) e
        | TE_SIGNALLED =>
            rlet s := print_signalled c s i (wstatus wd) in
            rlet s := droptcb c s i in Ok (true, s)
        | TE_GROUP_STOP =>
            rlet s := print_stopped c s i (WSTOPSIG (wstatus wd)) e in
            if c_seize c then resume s i wd OP_LISTEN 0 e else resume s i wd op0 (WSTOPSIG (wstatus wd)) e
        | TE_EXITED =>
            rlet s := print_exited c s i (wstatus wd) in
            rlet s := droptcb c s i in Ok (true, s)
        | TE_STOP_BEFORE_EXECVE =>
            let s := setf s i CHECK_EXEC_SYSCALL false in
            rlet (sw, s) := maybe_switch_current_tcp c s i in
            match current (lg s) with
            | None => Undef
            | Some i =>
                rlet (bad, sig, s) :=
                  (if match sw with None => negb (fl s i INSYSCALL) | Some _ => false end
                   then rlet (r, sig, s) := trace_syscall c s i true e in Ok ((r <? 0)%Z, sig, s)
                   else Ok (false, 0, s)) in
                if bad then Ok (true, s)
                else if c_detexec c then
                  if fl s i SKIP_DETACH_ON_FIRST_EXEC then resume (setf s i SKIP_DETACH_ON_FIRST_EXEC false) i wd op0 sig e
                  else rlet s := detach c s i (e_det e) (e_waits e) in Ok (true, s)
                else resume s i wd op0 sig e
            end
        | TE_STOP_BEFORE_EXIT =>
            rlet s := exit_event c s i in
            resume s i wd op0 0 e
        end
      end
    end
  end.

(** src/strace.c:4147-4173 *)
Definition restart_delayed_tcb (c : cfg) (s : st) (i : nat) (e : denv) : res (bool * st) :=
  let w := match dwd (dl s) i with Some w => w | None => wdata0 end in
  let wd := {| te := TE_RESTART; wstatus := wstatus w; wmsg := wmsg w |} in
  let s := setf s i DELAYED false in
  let prev := current (lg s) in
  let s := with_lg s (set_current (lg s) (Some i)) in
  rlet (ok, s) := dispatch_event c s (Some wd) e in
  let s := with_lg s (set_current (lg s) prev) in
  Ok (ok, with_dl s {| expiry := expiry (dl s); dwd := fun j => if Nat.eqb j i then None else dwd (dl s) j; created := created (dl s); armed := armed (dl s); timer_at := timer_at (dl s) |}).
(** src/strace.c:4175-4206: the loop over the tcbs from [i] on; [es i]: the environment of the
    restart of tcb i *)
Fixpoint restart_delayed_from (c : cfg) (s : st) (now : ts) (is : list nat) (next : option nat) (es : nat -> denv) : res (bool * st) :=
  match is with
  | [] => Ok (true, match next with Some j => arm_delay_timer s j | None => s end)
  | i :: r =>
      if negb (P s i =? 0) && fl s i DELAYED then
        if (0 <? ts_cmp now (expiry (dl s) i))%Z then
          rlet (ok, s) := restart_delayed_tcb c s i (es i) in
          if ok then restart_delayed_from c s now r next es else Ok (false, s)
        else
          restart_delayed_from c s now r
            (match next with
             | None => Some i
             | Some j => if (0 <? ts_cmp (expiry (dl s) j) (expiry (dl s) i))%Z then Some i else next
             end) es
      else restart_delayed_from c s now r next es
  end.
Definition restart_delayed_tcbs (c : cfg) (s : st) (now : ts) (es : nat -> denv) : res (bool * st) :=
  restart_delayed_from c s now (seq 0 (length (pids (tb s)))) None es.
(** src/strace.c:4212-4226, with src/delay.c:66-69 *)
Definition timer_sighandler (c : cfg) (s : st) (now : ts) (es : nat -> denv) : res st :=
  let s := with_dl s {| expiry := expiry (dl s); dwd := dwd (dl s); created := created (dl s); armed := false; timer_at := timer_at (dl s) |} in
  if rfail s then Ok s
  else rlet (ok, s) := restart_delayed_tcbs c s now es in Ok (if ok then s else set_rfail s).

(** src/strace.c:3324-3362; the unknown tracee is detached when forks are not followed *)
Definition maybe_allocate_tcb (c : cfg) (s : st) (pid status : N) : res (option nat * st) :=
  if negb (WIFSTOPPED status) then
    Ok (None, if c_detexec c && (pid =? child s) then set_child s 0 else s)
  else if c_follow c then
    rlet (i, s) := new_tcb s pid in
    Ok (Some i, attached c s i (if c_seize c then [] else [IGNORE_ONE_SIGSTOP]))
  else Ok (None, s).

(** src/strace.c:3787-3869.  [siok]: PTRACE_GETSIGINFO succeeded; [msg]: PTRACE_GETEVENTMSG, 0 if
    it failed.  The flag IGNORE_ONE_SIGSTOP is cleared if the second result says so. *)
Definition classify (c : cfg) (ign : bool) (status : N) (siok : bool) (msg : Z) : wdata * bool :=
  let mk t := {| te := t; wstatus := status; wmsg := 0 |} in
  if WIFSIGNALED status then (mk TE_SIGNALLED, false)
  else if WIFEXITED status then (mk TE_EXITED, false)
  else
    let sig := WSTOPSIG status in
    let event := N.shiftr status 16 in
    if event =? 0 then
      if (sig =? SIGSTOP) && ign then (mk TE_RESTART, true)
      else if sig =? c_trapsig c then (mk TE_SYSCALL_STOP, false)
      else (mk (if siok then TE_SIGNAL_DELIVERY_STOP else TE_GROUP_STOP), false)
    else if event =? EV_STOP then
      (mk (if (sig =? SIGSTOP) || (sig =? SIGTSTP) || (sig =? SIGTTIN) || (sig =? SIGTTOU) then TE_GROUP_STOP else TE_RESTART), false)
    else if event =? EV_EXEC then ({| te := TE_STOP_BEFORE_EXECVE; wstatus := status; wmsg := msg |}, false)
    else if event =? EV_EXIT then (mk TE_STOP_BEFORE_EXIT, false)
    else if event =? EV_SECCOMP then (mk TE_SECCOMP, false)
    else (mk TE_RESTART, false).

(** What wait4 answers; pid 0 if it would have to wait *)
Inductive nwait := NErr (errno : N) | NPid (pid status : N) (siok : bool) (msg : Z).

(** src/strace.c:3877-3887: queue the event [wd] of tcb [i], [pos] being wait_tab_pos *)
Definition enqueue (s : st) (i : nat) (pos : nat) (wd : wdata) : st :=
  let q := qu s in
  let wt := fun k => if Nat.eqb k pos then wd else wtab q k in
  let co := coll q ++ [(gen (lg s) i, wd)] in
  with_qu s (if existsb (Nat.eqb i) (pending q)
             then {| pending := pending q; extra := Some (i, pos); wtab := wt; widx := widx q; coll := co; disp := disp q |}
             else {| pending := pending q ++ [i]; extra := extra q; wtab := wt; widx := fun j => if Nat.eqb j i then pos else widx q j; coll := co; disp := disp q |}).

Inductive collect_end := CBreak | CNull.
(** src/strace.c:3736-3896.  [ws]: the answer of the wait4 already made, then those of the
    following ones, which do not block; an exhausted list stands for 0. *)
Fixpoint collect (c : cfg) (s : st) (nohang : bool) (pos : nat) (ws : list nwait) : res (collect_end * st) :=
  match ws with
  | [] => Ok (CBreak, s)
  | NErr errno :: _ =>
      if errno =? EINTR then Ok (CBreak, s)
      else if nohang then Ok (CBreak, s)
      else if (NP s =? 0) && (errno =? ECHILD) then Ok (CNull, s)
      else Die
  | NPid pid status siok msg :: r =>
      if pid =? 0 then Ok (CBreak, s)
      else if pid =? popen s then Ok (CBreak, if WIFSTOPPED status then s else set_popen s 0)
      else
        let (t, found) := pid2tcb (tb s) (Z.of_N pid) in
        let s := with_tb s t in
        rlet (found, s) := match found with Some i => Ok (Some i, s) | None => maybe_allocate_tcb c s pid status end in
        match found with
        | None => collect c s true pos r
        | Some i =>
            let (wd, clr) := classify c (fl s i IGNORE_ONE_SIGSTOP) status siok msg in
            let s := if clr then setf s i IGNORE_ONE_SIGSTOP false else s in
            let s := enqueue s i pos wd in
            match extra (qu s) with
            | Some _ => Ok (CBreak, s)
            | None => collect c s true (S pos) r
            end
        end
  end.

(** src/strace.c:3517-3549.  [opterr]: errno of PTRACE_SETOPTIONS; [gname]: name found by
    get_scno, if it is called and succeeds *)
Definition startup_tcb (c : cfg) (s : st) (i : nat) (opterr : N) (gname : option (list N)) : res st :=
  let s := setf s i STARTUP false in
  if negb (c_seize c) && negb (opterr =? 0) && negb (opterr =? ESRCH) then Die
  else Ok (if fl s i GRABBED then with_name s i (match gname with Some n => n | None => bs "????" end) else s).

(** src/strace.c:3912-3922 (next_event_exit); [wd] is what is returned *)
Definition event_exit (c : cfg) (s : st) (i : nat) (opterr : N) (gname : option (list N)) : res (option wdata * st) :=
  rlet s := (if fl s i STARTUP then startup_tcb c s i opterr gname else Ok s) in
  let wd := wtab (qu s) (widx (qu s) i) in
  let q := qu s in
  Ok (Some wd, with_qu (with_lg s (set_current (lg s) (Some i)))
        {| pending := pending q; extra := extra q; wtab := wtab q; widx := widx q; coll := coll q; disp := disp q ++ [(gen (lg s) i, wd)] |}).
(** src/strace.c:3898-3910 (next_event_get_tcp) *)
Definition get_tcp (c : cfg) (s : st) (opterr : N) (gname : option (list N)) : res (option wdata * st) :=
  let q := qu s in
  match pending q with
  | [] =>
      let wd := {| te := TE_NEXT; wstatus := 0; wmsg := 0 |} in
      Ok (Some wd, with_qu s {| pending := []; extra := extra q; wtab := fun k => if Nat.eqb k 0 then wd else wtab q k; widx := widx q; coll := coll q; disp := disp q |})
  | i :: r =>
      event_exit c (with_qu s {| pending := r; extra := extra q; wtab := wtab q; widx := widx q; coll := coll q; disp := disp q |}) i opterr gname
  end.

Record nenv := {
  n_intr : N;             (* signal that strace caught, 0 for none *)
  n_timer : option (ts * (nat -> denv));   (* the timer's handler runs while waiting: clock, environments *)
  n_waits : list nwait; n_opterr : N; n_gname : option (list N) }.
(** src/strace.c:3633-3923 *)
Definition next_event (c : cfg) (s : st) (n : nenv) : res (option wdata * st) :=
  let s := if n_intr n =? 0 then s else set_intr s (n_intr n) in
  if negb (intr s =? 0) then Ok (None, s)
  else if (limit s =? 0)%Z then Ok (None, set_child s 0)
  else
    match pending (qu s) with
    | _ :: _ => get_tcp c s (n_opterr n) (n_gname n)
    | [] =>
      match extra (qu s) with
      | Some (i, idx) =>
          let q := qu s in
          event_exit c (with_qu s {| pending := []; extra := None; wtab := wtab q; widx := fun j => if Nat.eqb j i then idx else widx q j; coll := coll q; disp := disp q |}) i (n_opterr n) (n_gname n)
      | None =>
          if negb (popen s =? 0) && (NP s =? 0) then Ok (None, s)
          else
            rlet (stop, s) := (if armed (dl s) then
                          rlet s := match n_timer n with Some (now, es) => timer_sighandler c s now es | None => Ok s end in
                          Ok (rfail s, s)
                       else Ok (false, s)) in
            if stop then Ok (None, s)
            else
              rlet (r, s) := collect c s false 0 (n_waits n) in
              match r with
              | CNull => Ok (None, s)
              | CBreak => get_tcp c s (n_opterr n) (n_gname n)
              end
      end
    end.

(** one turn of the loop in main (src/strace.c:4281); the result is false when it ends *)
Definition turn (c : cfg) (s : st) (ne : nenv * denv) : res (bool * st) :=
  rlet (w, s) := next_event c s (fst ne) in dispatch_event c s w (snd ne).
Fixpoint turns (c : cfg) (s : st) (l : list (nenv * denv)) : res (bool * st) :=
  match l with
  | [] => Ok (true, s)
  | ne :: r => rlet (go, s) := turn c s ne in if go then turns c s r else Ok (false, s)
  end.

(** ** Start and end *)
(** src/strace.c:1385-1443: attaching to tcb [i].  [ok]: the first attach succeeded; [tids]: the
    other threads that could be attached to, when they are looked for *)
Definition attach_tcb (c : cfg) (s : st) (i : nat) (ok : bool) (tids : list N) : res st :=
  let fs := GRABBED :: (if c_seize c then [] else [IGNORE_ONE_SIGSTOP]) in
  if negb ok then droptcb c s i
  else
    let s := attached c s i fs in
    fold_left (fun rs tid => rlet s := rs in rlet (j, s) := new_tcb s tid in Ok (attached c s j fs)) tids (Ok s).

(** src/strace.c:1818-1852: strace COMMAND, without -D.  [sec]: seccomp_filtering *)
Definition startup_child (c : cfg) (s : st) (pid : N) (sec : bool) : res st :=
  let s := set_child s pid in
  rlet (i, s) := new_tcb s pid in
  let s := attached c s i (SKIP_DETACH_ON_FIRST_EXEC :: HIDE_LOG :: (if c_seize c then [] else [IGNORE_ONE_SIGSTOP])) in
  Ok (if sec then setf s i SECCOMP_FILTER true else s).

(** src/strace.c:3252-3315.  [as_ i]: answers about tcb i; [ws]: answers of waitpid(-1), with the
    errno of the restart; an exhausted list stands for an error.  [exitkill]: PTRACE_O_EXITKILL *)
Fixpoint cleanup_all (c : cfg) (s : st) (is : list nat) (as_ : nat -> detans) (n : nat) : res (nat * st) :=
  match is with
  | [] => Ok (n, s)
  | i :: r =>
      if P s i =? 0 then cleanup_all c s r as_ n
      else
        let (wait, s) := detach_or_interrupt_or_stop c s i (as_ i) in
        if wait then cleanup_all c s r as_ (S n)
        else rlet s := droptcb c s i in cleanup_all c s r as_ n
  end.
Inductive cwait := CErr (eintr : bool) | CPid (pid status err : N).
Fixpoint cleanup_wait (c : cfg) (s : st) (n : nat) (ws : list cwait) : res st :=
  match n, ws with
  | O, _ | _, [] => Ok s
  | S _, CErr true :: r => cleanup_wait c s n r
  | S _, CErr false :: _ => Ok s
  | S n', CPid pid status err :: r =>
      if pid =? popen s then cleanup_wait c (if WIFSTOPPED status then s else set_popen s 0) n r
      else
        let (t, found) := pid2tcb (tb s) (Z.of_N pid) in
        let s := with_tb s t in
        match found with
        | None => cleanup_wait c s n r
        | Some i =>
            rlet (done, s) := detach_interrupted_or_stopped c s i status err in
            if done then rlet s := droptcb c s i in cleanup_wait c s n' r else cleanup_wait c s n r
        end
  end.
Definition cleanup (c : cfg) (s : st) (exitkill : bool) (as_ : nat -> detans) (ws : list cwait) : res st :=
  if exitkill then Ok s
  else rlet (n, s) := cleanup_all c s (seq 0 (length (pids (tb s)))) as_ 0%nat in cleanup_wait c s n ws.

(** ** The starting state and -p *)
Definition st0 (ch po : N) (li : Z) : st :=
  {| tb := tab0; lg := log0; fl := fun _ _ => false; sname := fun _ => []; dec := fun _ => false;
     qu := {| pending := []; extra := None; wtab := fun _ => wdata0; widx := fun _ => O; coll := []; disp := [] |};
     dl := {| expiry := fun _ => {| sec := 0; nsec := 0 |}; dwd := fun _ => None; created := false; armed := false; timer_at := {| sec := 0; nsec := 0 |} |};
     child := ch; popen := po; intr := 0; rfail := false; exitc := 0; limit := li; reqs := []; calls := [] |}.
(** src/strace.c:1355-1383 (process_opt_p_list), the pids already parsed *)
Fixpoint alloc_pids (s : st) (ps : list N) : res st :=
  match ps with [] => Ok s | p :: r => rlet (_, s) := new_tcb s p in alloc_pids s r end.
(** src/strace.c:1497-1526 (startup_attach), without -D; [ans i]: whether attaching to tcb i
    succeeded, and the threads of it that could be attached to as well *)
Fixpoint attach_from (c : cfg) (s : st) (is : list nat) (ans : nat -> bool * list N) : res st :=
  match is with
  | [] => Ok s
  | i :: r =>
      rlet s := (if (P s i =? 0) || fl s i ATTACHED then Ok s else attach_tcb c s i (fst (ans i)) (snd (ans i))) in
      attach_from c s r ans
  end.
Definition startup_attach (c : cfg) (s : st) (ans : nat -> bool * list N) : res st := attach_from c s (seq 0 (length (pids (tb s)))) ans.
(** src/strace.c:2601, 3117-3163: -p, then the command, then attaching.  Simplified: no signal
    is caught meanwhile. *)
Definition startup (c : cfg) (s : st) (ps : list N) (cmd : option (N * bool)) (ans : nat -> bool * list N) : res st :=
  rlet s := alloc_pids s ps in
  rlet s := match cmd with Some (pid, sec) => startup_child c s pid sec | None => Ok s end in
  startup_attach c s ans.

(** src/strace.c:4228-4272: how strace itself ends.  [fatal]: raising the signal kills strace *)
Inductive ending := Exits (code : N) | KilledBy (sig : N).
Definition terminate (s : st) (sig : N) (fatal : N -> bool) : ending :=
  let code := if sig =? 0 then exitc s else N.lor 0x100 sig in
  if 0xff <? code then
    let g := N.land code 0xff in
    if fatal g then KilledBy g else Exits (N.land (g + 128) 0xff)
  else Exits (N.land code 0xff).
