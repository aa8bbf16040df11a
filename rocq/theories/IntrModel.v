(** Signals of strace itself: src/strace.c:100-112, 1573-1642 (exec_or_die), 1785-1852 (startup_child), 1939-1944, 2977, 3096-3163,
    3252-3276 (cleanup), 3318-3322 (interrupt).  The options are those of C84, the identity of the program that of C85. *)
From Verif Require Import Base.
Local Open Scope N_scope.

Definition SIGHUP : N := 1.
Definition SIGINT : N := 2.
Definition SIGQUIT : N := 3.
Definition SIGPIPE : N := 13.
Definition SIGALRM : N := 14.
Definition SIGTERM : N := 15.
Definition SIGCHLD : N := 17.
Definition SIGCONT : N := 18.
Definition SIGTSTP : N := 20.
Definition SIGTTIN : N := 21.
Definition SIGTTOU : N := 22.

(** What a process does on a signal; [Interrupt], [Timer]: the two handlers of strace *)
Inductive act := Dfl | Ign | Interrupt | Timer.
Definition is_dfl (a : act) : bool := match a with Dfl => true | _ => false end.
(** [alarmed]: a timer of alarm(2) is running *)
Record proc := { action : N -> act; blocked : N -> bool; alarmed : bool }.
(** set_sighandler, strace.c:1939-1944 *)
Definition set_sighandler (p : proc) (sig : N) (a : act) : proc :=
  {| action := fun s => if s =? sig then a else action p s; blocked := blocked p; alarmed := alarmed p |}.
Definition block (p : proc) (sig : N) : proc :=
  {| action := action p; blocked := fun s => (s =? sig) || blocked p s; alarmed := alarmed p |}.
Definition set_alarm (p : proc) (b : bool) : proc := {| action := action p; blocked := blocked p; alarmed := b |}.
(** what fork(2) and execve(2) keep: see fork(2), execve(2), signal(7) *)
Definition fork (p : proc) : proc := set_alarm p false.
Definition execve (p : proc) : proc :=
  {| action := fun s => match action p s with Ign => Ign | _ => Dfl end; blocked := blocked p; alarmed := alarmed p |}.

(** the options that matter: -I as read (0: not given), -D, -o, and whether there is a command *)
Record opts := { o_intr : N; o_daemon : bool; o_out : bool; o_prog : bool }.
(** strace.c:3096-3105 *)
Definition opt_intr (o : opts) : N :=
  let i := o_intr o in
  let i := if o_daemon o && (i =? 0) then 4 else i in
  let i := if o_out o && o_prog o then if i =? 0 then 3 else i else i in
  if i =? 0 then 2 else i.

(** exec_or_die: [p] becomes the program; [saved]: params->child_sa *)
Definition exec_or_die (o : opts) (saved : act) (p : proc) : proc :=
  let restore p := if is_dfl saved then p else set_sighandler p SIGCHLD saved in
  let p := if negb (o_daemon o) then restore p else p in
  let p := if negb (o_daemon o) then p else restore (set_alarm (set_alarm p true) false) in
  execve p.
(** startup_child: who becomes the program and who the tracer *)
Definition startup_child (o : opts) (saved : act) (p : proc) : proc * proc :=
  if o_daemon o then (exec_or_die o saved p, fork p) else (exec_or_die o saved (fork p), p).
(** the handlers, strace.c:3139-3160 *)
Definition install (o : opts) (p : proc) : proc :=
  let p := set_sighandler p SIGTTOU Ign in
  let p := set_sighandler p SIGTTIN Ign in
  let p := if opt_intr o =? 1 then p
           else let p := if opt_intr o =? 4 then set_sighandler p SIGTSTP Ign else p in
                let a := if opt_intr o =? 2 then Interrupt else Ign in
                set_sighandler (set_sighandler (set_sighandler (set_sighandler (set_sighandler p SIGHUP a) SIGINT a) SIGQUIT a) SIGPIPE a) SIGTERM a in
  set_sighandler (block p SIGALRM) SIGALRM Timer.
(** init: the program, if there is one, and the tracer when it starts to attach (strace.c:1445-1470: with -D it forks once more) *)
Definition init (o : opts) (p0 : proc) : option proc * proc :=
  let saved := action p0 SIGCHLD in
  let p := set_sighandler p0 SIGCHLD Dfl in
  let '(prog, p) := if o_prog o then let '(q, p) := startup_child o saved p in (Some q, p) else (None, p) in
  let p := install o p in
  (prog, if o_daemon o then fork p else p).

(** What a signal does to a process: nothing; it waits; it is noted in [interrupted] (strace.c:3318-3322); the delayed tracees are
    looked at; or what the kernel does by default *)
Inductive effect := Nothing | Waits | Noted | Delays | Default.
Definition deliver (p : proc) (sig : N) : effect :=
  match action p sig with
  | Ign => Nothing
  | a => if blocked p sig then Waits else match a with Interrupt => Noted | Timer => Delays | _ => Default end
  end.

(** the signals cleanup sends, strace.c:3258-3272; [exitkill]: --kill-on-exit; [pids]: the processes traced; [child]: strace_child *)
Definition cleanup_kills (exitkill : bool) (pids : list N) (child fatal_sig : N) : list (N * N) :=
  if exitkill then [] else
  let f := if fatal_sig =? 0 then SIGTERM else fatal_sig in
  flat_map (fun p => if p =? 0 then [] else if p =? child then [(p, SIGCONT); (p, f)] else []) pids.
