(** What -e status=SET promises. *)
From Verif Require Import Base TcbModel LogModel LoopModel.
Local Open Scope N_scope.

(** How a call ends: with a result that is an error or not, with one that cannot be had, or not at
    all as its tracee is exiting. *)
Inductive outcome := Done (failed : bool) (text ret extra : list N) | Unavailable | Unfinished.
Definition selected (c : lcfg) (o : outcome) : bool :=
  match o with
  | Done failed _ _ _ => if failed then c_failed c else c_succ c
  | Unavailable => c_unavail c
  | Unfinished => c_unfin c
  end.
(** The line of a call; [decoded]: its arguments were all shown when it was entered. *)
Definition call_line (shown : bool) (name text : list N) (decoded : bool) (o : outcome) : list tok :=
  [Lead shown; Entry name; Txt text] ++
  match o with
  | Done _ t r x => (if decoded then [] else [Txt t]) ++ [Ret r; Nl x]
  | Unavailable => [Ret (bs "? <unavailable>"); Nl []]
  | Unfinished => (if decoded then [] else [Unfin]) ++ [RetUnknown; Nl []]
  end.
(** What one tracee, in its life number [g], wrote *)
Definition mine (g : nat) (l : list item) : list item := filter (fun x => Nat.eqb (w_gen (fst x)) g) l.

(** An event that the next turn of the loop handles: what it is, of which tcb, and the state then *)
Definition handles (c : cfg) (s : st) (n : nenv) (i : nat) (wd : wdata) (s1 : st) : Prop :=
  next_event c s n = Ok (Some wd, s1) /\ current (lg s1) = Some i.
(** a stop at which the entry or the exit of a system call is looked at *)
Definition syscall_stop (c : cfg) (s : st) (i : nat) (wd : wdata) : Prop :=
  te wd = TE_SYSCALL_STOP \/ (te wd = TE_SECCOMP /\ fl s i SECCOMP_FILTER = true /\ c_secbefore c = false).
(** a traced call is entered *)
Definition enters_call (c : cfg) (s1 : st) (i : nat) (wd : wdata) (e : denv) : Prop :=
  syscall_stop c s1 i wd /\ fl s1 i INSYSCALL = false /\ e_scno e = 1%Z /\ e_args e = 1%Z /\ e_traced e = true /\ (fl s1 i HIDE_LOG = false \/ e_exec e = true).
(** a call ends, and how *)
Definition ends_call (c : cfg) (s1 : st) (i : nat) (wd : wdata) (e : denv) (o : outcome) : Prop :=
  match o with
  | Done failed t r x => syscall_stop c s1 i wd /\ x_res e = 1%Z /\ failed = x_err e /\ t = x_text e /\ r = x_ret e /\ x = x_extra e
  | Unavailable => syscall_stop c s1 i wd /\ x_res e <> 1%Z /\ x_res e <> 0%Z
  | Unfinished => te wd = TE_STOP_BEFORE_EXIT
  end.
(** a stop that is not about a call: a signal, a group stop, or a restart that strace asked for *)
Definition other_stop (c : cfg) (s : st) (i : nat) (wd : wdata) : Prop :=
  (te wd = TE_SIGNAL_DELIVERY_STOP \/ te wd = TE_GROUP_STOP) \/ te wd = TE_RESTART \/
  (te wd = TE_SECCOMP /\ (fl s i SECCOMP_FILTER = false \/ c_secbefore c = true)).
(** a stop about a call that is not to be traced: its exit, or its entry *)
Definition skips_call (c : cfg) (s : st) (i : nat) (wd : wdata) (e : denv) : Prop :=
  syscall_stop c s i wd /\
  ((fl s i INSYSCALL = true /\ fl s i FILTERED = true) \/
   (fl s i INSYSCALL = false /\ e_scno e = 1%Z /\ e_args e = 1%Z /\ e_traced e = false)).
(** Between two states no event of the life [g] with pid [p] was handled, nor did an execve of it,
    as a thread, take over the pid of its leader *)
Definition undisturbed (g : nat) (p : N) (s s' : st) : Prop :=
  exists D, disp (qu s') = disp (qu s) ++ D /\
    forall h wd, In (h, wd) D -> h <> g /\ (te wd = TE_STOP_BEFORE_EXECVE -> wmsg wd <> Z.of_N p).

(** streams in memory that tcb [k] writes to, or will *)
Definition mentions (l : log) (k m : nat) : Prop :=
  outf l k = Some (FMem m) \/ (exists r, staged l k = Some (m, r)) \/ (exists a, staged l k = Some (a, Some (FMem m))).
(** Tcb [i], in its life [g], has [dst] as its open log, keeps nothing back and has no unfinished line; and
    nobody else keeps back anything of it *)
Record idle (dst : dest) (i g : nat) (s : st) : Prop := {
  id_pid : P s i <> 0;
  id_gen : gen (lg s) i = g;
  id_new : (g < ngen (lg s))%nat;
  id_out : outf (lg s) i = Some (FReal dst);
  id_staged : staged (lg s) i = None;
  id_col : col (lg s) i = 0;
  id_reprint : fl s i REPRINT = false;
  id_others : forall k, k <> i -> gen (lg s) k <> g /\
    forall m, mentions (lg s) k m -> (m < length (mems (lg s)))%nat /\ mine g (nth m (mems (lg s)) []) = []
}.

(** lives are numbered in the order of their start, from 1, and no text is that of a life to come *)
Record known (l : log) : Prop := {
  kn_gen : forall k, (gen l k < ngen l)%nat;
  kn_mem : forall k m, mentions l k m -> (m < length (mems l))%nat;
  kn_text : forall m x, In x (nth m (mems l) []) -> (w_gen (fst x) < ngen l)%nat
}.
