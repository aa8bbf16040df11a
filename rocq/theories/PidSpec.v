(** Specification for PidThms: tasks in a tree of PID namespaces, and what /proc shows of them.
    A task has one ID of each kind in its own PID namespace and in each of the namespaces above. *)
From Verif Require Import Base PidModel.
Local Open Scope Z_scope.

(** [chain]: the namespaces of the task, its own first, the initial namespace last; [ids]: its
    thread, process, process group and session IDs in those namespaces, in that order *)
Record task := { chain : list N; ids : ptype -> list Z; name : list N }.
(** [strace_ns]: the namespace strace runs in; [proc_ns]: the one /proc was mounted in *)
Record world := { tasks : list task; strace_ns : N; proc_ns : N }.

Fixpoint assoc (l : list N) (x : list Z) (n : N) : option Z :=
  match l, x with
  | m :: l, i :: x => if N.eqb m n then Some i else assoc l x n
  | _, _ => None
  end.
(** the ID of the task in namespace [n]; none if it is not visible there *)
Definition id_in (t : task) (ty : ptype) (n : N) : option Z := assoc (chain t) (ids t ty) n.

(** the namespaces of [l] up to [n] *)
Fixpoint upto (n : N) (l : list N) : list N :=
  match l with [] => [] | m :: r => if N.eqb m n then [m] else m :: upto n r end.
(** [m] is [n] or above [n], for a task that is in [n] *)
Definition outward (t : task) (n m : N) : Prop := exists l1 l2, chain t = l1 ++ n :: l2 /\ In m (n :: l2).

(** What the kernel guarantees *)
Record sane (w : world) : Prop := {
  well_formed : forall t, In t (tasks w) ->
    NoDup (chain t) /\ ~ In 0%N (chain t) /\ forall ty, length (ids t ty) = length (chain t);
  (** a namespace has one parent *)
  tree : forall t u l1 l2 m1 m2 n, In t (tasks w) -> In u (tasks w) ->
    chain t = l1 ++ n :: l2 -> chain u = m1 ++ n :: m2 -> l2 = m2;
  (** a thread ID is positive and belongs to one task of the namespace *)
  tid_range : forall t n i, In t (tasks w) -> id_in t TID n = Some i -> 1 <= i <= 2147483647;
  tid_unique : forall t u n i, In t (tasks w) -> In u (tasks w) ->
    id_in t TID n = Some i -> id_in u TID n = Some i -> t = u;
  (** what has an ID in a namespace has one, and the same for all, in the namespaces above *)
  above : forall t ty n m i, In t (tasks w) -> id_in t ty n = Some i -> i <> 0 -> outward t n m ->
    exists j, id_in t ty m = Some j /\ j <> 0;
  common : forall t u ty n m i, In t (tasks w) -> In u (tasks w) -> i <> 0 ->
    id_in t ty n = Some i -> id_in u ty n = Some i -> outward t n m -> id_in t ty m = id_in u ty m;
  (** strace itself is found in /proc *)
  strace_there : exists me l, In me (tasks w) /\ chain me = strace_ns w :: l /\ In (proc_ns w) (chain me) }.

(** A task has no more namespaces than strace has room for *)
Definition shallow (w : world) : Prop := forall t, In t (tasks w) -> (length (chain t) <= 32)%nat.

(** [p] is a directory of /proc or of one of the task directories there *)
Definition listed (v : view) (p : Z) : Prop := exists q ts, In (q, ts) (dirs v) /\ 1 <= q <= 2147483647 /\ (p = q \/ In p ts).
(** What /proc shows: the numbers are thread IDs in the namespace of /proc; NS_GET_PARENT goes up to
    the namespace of strace, and not above; the IDs in /proc/PID/status are those
    from the namespace of /proc down to the namespace of the task *)
Record shows (w : world) (v : view) : Prop := {
  entry : forall t p, In t (tasks w) -> id_in t TID (proc_ns w) = Some p ->
    ns_of v p = (if existsb (N.eqb (strace_ns w)) (chain t) then upto (strace_ns w) (chain t) else firstn 1 (chain t)) /\
    (forall ty, ids_of v p ty = rev (firstn (length (upto (proc_ns w) (chain t))) (ids t ty))) /\
    comm_of v p = name t /\ listed v p;
  no_entry : forall p, (forall t, In t (tasks w) -> id_in t TID (proc_ns w) <> Some p) ->
    ns_of v p = [] /\ forall ty, ids_of v p ty = [] }.

(** What strace finds out about itself when it starts *)
Definition configured (c : config) (w : world) : Prop :=
  our_ns c = strace_ns w /\ (proc_ours c = true <-> proc_ns w = strace_ns w) /\ parent_known c = true.

(** The tracee [tk] of which [t] is the control block: known to strace by its thread ID in strace's
    namespace; its own namespace has been noted, or not yet *)
Definition traced (w : world) (t : tcb) (tk : task) (n : N) : Prop :=
  In tk (tasks w) /\ id_in tk TID (strace_ns w) = Some (t_pid t) /\
  (exists l, chain tk = n :: l) /\ (t_ns t = 0%N \/ t_ns t = n).

(** A history in which no process has more namespaces than there is room for *)
Definition event_view (e : event) : view := match e with Print v _ _ _ => v | Ours v _ _ => v end.
Definition roomy (h : list event) : Prop := forall e, In e h -> forall p ty, (length (ids_of (event_view e) p ty) <= 32)%nat.
