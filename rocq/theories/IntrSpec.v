(** What is expected of -I and of the signals of the program (C93). *)
From Verif Require Import Base IntrModel.
Local Open Scope N_scope.

(** a process that has just been started: execve leaves no handlers *)
Definition fresh (p : proc) : Prop := forall s, action p s = Dfl \/ action p s = Ign.
(** the signals that the manual calls fatal: those of the terminal and of kill(1) *)
Definition fatal (s : N) : Prop := In s [1; 2; 3; 13; 15].
(** strace(1): the default of -I *)
Definition default_mode (o : opts) : N := if o_daemon o then 4 else if o_out o && o_prog o then 3 else 2.
(** in force *)
Definition mode (o : opts) : N := if o_intr o =? 0 then default_mode o else o_intr o.
