(** Delays (C31). *)
From Verif Require Import Base TimeModel TimeSpec WaitModel TcbModel LogModel LoopModel LoopSpec.
Local Open Scope N_scope.

(** the requests to go on that were made to a tracee *)
Definition restarts (g : nat) (l : list req) : list req := filter (fun r => Nat.eqb (r_gen r) g && is_restart (r_op r)) l.
(** the event is a stop at a system call or an execve *)
Definition reads (wd : wdata) : bool := match te wd with TE_SYSCALL_STOP | TE_SECCOMP | TE_STOP_BEFORE_EXECVE => true | _ => false end.
(** tracee [i] is kept stopped for a delay that ends at [x] *)
Record put_aside (s : st) (i : nat) (g : nat) (x : ts) : Prop := { pa_live : P s i <> 0; pa_gen : gen (lg s) i = g; pa_del : fl s i DELAYED = true; pa_at : expiry (dl s) i = x }.
(** the call that tracee [i] is stopped at could be read and is traced, so that what is asked for it
    is done *)
Definition delayed_call (s : st) (i : nat) (e : denv) : Prop :=
  if fl s i INSYSCALL then fl s i FILTERED = false /\ x_res e <> 0%Z else e_scno e = 1%Z /\ e_args e = 1%Z /\ fl s i HIDE_LOG = false /\ e_traced e = true.
(** it makes no system call meanwhile, and stays *)
Fixpoint sleeps (c : cfg) (i : nat) (s : st) (l : list (nenv * denv)) : Prop :=
  match l with
  | [] => True
  | ne :: r =>
      match next_event c s (fst ne) with Ok (Some wd, s1) => current (lg s1) = Some i -> reads wd = false | _ => True end /\
      match turn c s ne with Ok (go, s') => P s' i <> 0 /\ (if go then sleeps c i s' r else True) | _ => True end
  end.
(** What is asked of the clock, which is at [t] or later.  The handler of the timer runs after the
    timer has fired.  When a delay is set up, the two readings of the clock are in their order, the
    second at most [d] after the first; and the timer has not fired, or its handler has run. *)
Fixpoint ticks (c : cfg) (d t : Z) (s : st) (l : list (nenv * denv)) : Prop :=
  match l with
  | [] => True
  | ne :: r => exists t1 t2, (t <= t1 <= t2)%Z /\
      (forall now es, n_timer (fst ne) = Some (now, es) -> armed (dl s) = true -> queued s = [] -> normal now /\ (ns (timer_at (dl s)) <= ns now <= t1)%Z) /\
      match next_event c s (fst ne) with
      | Ok (Some wd, s1) => reads wd = true -> forall i, current (lg s1) = Some i -> forall diff now now', asked s1 i (snd ne) = Some (diff, now, now') ->
          normal diff /\ normal now /\ normal now' /\ (t1 <= ns now <= ns now')%Z /\ (ns now' <= ns now + d)%Z /\ (ns now' <= t2)%Z /\ (armed (dl s1) = true -> (ns now' < ns (timer_at (dl s1)))%Z)
      | _ => True
      end /\
      match turn c s ne with Ok (true, s') => ticks c d t2 s' r | _ => True end
  end.
