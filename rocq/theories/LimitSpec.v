(** What is expected of --syscall-limit (C92).  The event loop is that of LoopModel. *)
From Verif Require Import Base TimeModel WaitModel TcbModel LogModel LoopModel.
Local Open Scope N_scope.

(** the stop is one at which system calls are looked at *)
Definition syscall_stop (c : cfg) (s : st) (i : nat) (wd : wdata) : bool :=
  match te wd with
  | TE_SYSCALL_STOP => true
  | TE_SECCOMP => fl s i SECCOMP_FILTER && negb (c_secbefore c)
  | _ => false
  end.
(** the system call is one that -e status selects *)
Definition selected (c : cfg) (e : denv) : bool := c_all (lc c) || (if x_err e then c_failed (lc c) else c_succ (lc c)).
(** the system call that ends here is captured: tracee [i] has been seen entering one that is
    traced, its result could be got, and -e status selects it *)
Definition captured_at (c : cfg) (s : st) (i : nat) (wd : wdata) (e : denv) : bool :=
  syscall_stop c s i wd && fl s i INSYSCALL && negb (fl s i FILTERED) && (x_res e =? 1)%Z && selected c e.
(** a turn of the loop captures a call *)
Definition captures (c : cfg) (s : st) (ne : nenv * denv) : bool :=
  match next_event c s (fst ne) with
  | Ok (Some wd, s1) => match current (lg s1) with Some i => captured_at c s1 i wd (snd ne) | None => false end
  | _ => false
  end.
(** the number of calls captured in a run *)
Fixpoint captured (c : cfg) (s : st) (l : list (nenv * denv)) : Z :=
  match l with
  | [] => 0
  | ne :: r => (if captures c s ne then 1 else 0) + match turn c s ne with Ok (true, s') => captured c s' r | _ => 0 end
  end%Z.
