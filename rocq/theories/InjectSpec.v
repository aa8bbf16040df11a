(** What -e inject=...:when=... promises. *)
From Verif Require Import Base NumSetModel StrtouSpec InjectModel.
Local Open Scope N_scope.

(** ---- when=F[..L][+[S]] ---- *)
Definition step_part (r : list N) (default S : N) : Prop :=
  (r = [] /\ S = default) \/
  (r = bs "+" /\ S = 1) \/
  (exists s, r = bs "+" ++ s /\ s <> [] /\ numeral s S [] /\ 1 <= S <= 65535).
Definition when_denotes (s : list N) (F L S : N) : Prop :=
  exists r, numeral s F r /\ 1 <= F <= 65535 /\
    ((L = INJECT_LAST_INF /\ step_part r 0 S) \/
     (exists s2 r2, r = bs ".." ++ s2 /\ numeral s2 L r2 /\ F <= L < 65535 /\ step_part r2 1 S)).

(** ---- the schedule: invocation number n (from 1) is tampered with ---- *)
Definition scheduled (F L S n : N) : Prop :=
  (exists k, n = F + k * S) /\ (L = INJECT_LAST_INF \/ n <= L).

(** Number of entries of (pid, p, scno) since pid was last dropped. *)
Fixpoint entries (pid : N) (p scno : nat) (acc : N) (h : list iev) : N :=
  match h with
  | [] => acc
  | Enter pid' p' scno' _ :: r =>
      entries pid p scno
        (if (pid' =? pid) && Nat.eqb p' p && Nat.eqb scno' scno then acc + 1 else acc) r
  | Drop pid' :: r => entries pid p scno (if pid' =? pid then 0 else acc) r
  end.

(** the number that must be left in the result register *)
Definition injected_register (i : tinj) : N :=
  if is_retval i then value i else 2^64 - value i.
(** the outcome strace must report *)
Definition injected_report (i : tinj) : tres :=
  if is_retval i then {| u_error := 0; u_rval := value i |}
  else {| u_error := value i; u_rval := 2^64 - 1 |}.

(** An injection as option parsing produces them: 64-bit return value, or errno
    between 1 and 4095. *)
Definition tinj_ok (i : tinj) : Prop :=
  value i < 2^64 /\ (is_retval i = false -> 1 <= value i <= 4095).
(** Kernel: system call number -1 fails with ENOSYS (38); the system calls
    allowed in syscall= do not fail. *)
Definition kernel_ok (c : tcall) : Prop :=
  kernel c None = 2^64 - 38 /\ kernel c (Some true) < 2^64 - 4095 /\ kernel c (Some false) < 2^64.
(** a syscall= injection took effect in this call *)
Definition substituted (c : tcall) : bool :=
  match inj c with Some i => with_syscall i && set_ok c | None => false end.

(** strace knows what the kernel reported without guessing: it has
    PTRACE_GET_SYSCALL_INFO, or the guess based on the register is right *)
Definition unambiguous (sci : bool) (c : tcall) (i : tinj) : Prop :=
  sci = true \/
  (is_retval i = false /\ never_fails c = false) \/
  (is_retval i = true /\ value i < 2^64 - 4095).

(** ---- several expressions ---- *)
(** expression [r] names system call [i] of personality [p] *)
Definition covers (tmp : list nset) (p : nat) (i : N) : bool :=
  match is_number_in_set_array i (Some tmp) p with Some b => b | None => false end.
(** the expression that decides: the last one given that names the call *)
Definition deciding {D} (rules : list (rule D)) (p : nat) (i : N) : option (rule D) :=
  find (fun r => covers (r_set r) p i) (rev rules).
(** one set and one set of options per personality *)
Definition rules_ok {D} (nsys : list nat) (r : rule D) : Prop :=
  length (r_opts r) = length nsys /\ length (r_set r) = length nsys.
