(** Letting go of tracees (C28). *)
From Verif Require Import Base WaitModel TcbModel LogModel LoopModel.
Local Open Scope N_scope.

(** what strace is told of one tracee by the waits that it makes for all *)
Fixpoint about (p : N) (ws : list cwait) : list dwait :=
  match ws with
  | [] => []
  | CErr e :: r => DErr e :: about p r
  | CPid q st err :: r => if q =? p then DStatus st err :: about p r else about p r
  end.
(** strace lets go of a tracee at its first stop if it was seized, at the SIGSTOP it was sent
    otherwise *)
Definition last_stop (c : cfg) (st : N) : bool := c_seize c || (WSTOPSIG st =? SIGSTOP).
(** the stops of the tracee that are handled: up to the last, its death, or an error *)
Fixpoint stops (c : cfg) (ws : list dwait) : list N :=
  match ws with
  | [] => []
  | DErr eintr :: r => if eintr then stops c r else []
  | DStatus st err :: r =>
      if WIFSTOPPED st then st :: (if last_stop c st || negb ((err =? 0) || (err =? ESRCH)) then [] else stops c r) else []
  end.
(** the signal that a stop is about: none if it is of a system call, of ptrace itself, or by the
    SIGSTOP of strace *)
Definition real (c : cfg) (st : N) : N :=
  if negb (N.shiftr st 16 =? 0) || (WSTOPSIG st =? c_trapsig c) || (negb (c_seize c) && (WSTOPSIG st =? SIGSTOP)) then 0 else WSTOPSIG st.
(** a stop for an event of ptrace other than PTRACE_EVENT_STOP, which only seized tracees have *)
Definition event_stop (c : cfg) (st : N) : bool := negb (N.shiftr st 16 =? 0) && negb (c_seize c && (N.shiftr st 16 =? EV_STOP)).
(** the requests made to a tracee *)
Definition to_gen (g : nat) (l : list req) : list (op * N) := map (fun r => (r_op r, r_sig r)) (filter (fun r => Nat.eqb (r_gen r) g) l).
(** the tracee must be waited for: the stop that attaching to it causes is still to come, or it runs
    and was asked to stop *)
Definition waits (s : st) (i : nat) (a : detans) : bool :=
  fl s i ATTACHED && (fl s i IGNORE_ONE_SIGSTOP || ((a_detach a =? ESRCH) && (a_alive a =? 0) && (a_stop a =? 0))).
(** what it is asked before *)
Definition before (c : cfg) (s : st) (i : nat) (a : detans) : list (op * N) :=
  if negb (fl s i ATTACHED) || fl s i IGNORE_ONE_SIGSTOP then []
  else (OP_DETACH, 0) :: (if (a_detach a =? ESRCH) && (a_alive a =? 0) then [if c_seize c then (OP_INTERRUPT, 0) else (OP_TKILL, SIGSTOP)] else []).
(** what it is asked at a stop *)
Definition at_stop (c : cfg) (st : N) : op * N := (if last_stop c st then OP_DETACH else OP_CONT, real c st).
(** waits after which the tracee is still there: interrupted ones, and stops short of the last *)
Definition before_last (c : cfg) (w : dwait) : Prop :=
  match w with DErr eintr => eintr = true | DStatus st err => WIFSTOPPED st = true /\ last_stop c st = false /\ (err = 0 \/ err = ESRCH) end.
