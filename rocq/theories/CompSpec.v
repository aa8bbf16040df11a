(** Reading composed values as a C compiler would. *)
From Verif Require Import Base Printf BitsModel RetSpec ModeSpec.
Local Open Scope N_scope.

(** The text without comments and blanks.  As in C, comments do not nest. *)
Fixpoint uncomment (inside : bool) (s : list N) : list N :=
  match s with
  | [] => []
  | c :: r =>
      if inside then
        if c =? 42 then match r with d :: r' => if d =? 47 then uncomment false r' else uncomment true r | [] => [] end
        else uncomment true r
      else
        if c =? 32 then uncomment false r
        else if c =? 47 then match r with d :: r' => if d =? 42 then uncomment true r' else c :: uncomment false r | [] => [c] end
        else c :: uncomment false r
  end.
(** the parts before and after the first << *)
Fixpoint split_shl (s : list N) : list N * option (list N) :=
  match s with
  | [] => ([], None)
  | c :: r =>
      let next := let (a, b) := split_shl r in (c :: a, b) in
      if c =? 60 then match r with d :: r' => if d =? 60 then ([], Some r') else next | [] => next end else next
  end.
(** a constant, or one shifted by another *)
Definition term (names : list (N * list N)) (w : list N) : option N :=
  match split_shl w with
  | (a, None) => value_of names a
  | (a, Some b) => olet x := value_of names a in olet n := value_of names b in Some (N.shiftl x n)
  end.
(** a|b<<n|c *)
Definition expression (names : list (N * list N)) (s : list N) : option N :=
  fold_right (fun w a => olet v := term names w in olet x := a in Some (N.lor v x)) (Some 0) (split_bar s).
(** the C expression [text] has the value [v] *)
Definition denotes (names : list (N * list N)) (text : list N) (v : N) : Prop := expression names (uncomment false text) = Some v.

(** ---- constants ---- *)
(** futex(2), <linux/futex.h> *)
Definition futex_names : list (N * list N) :=
  [(0, bs "FUTEX_WAIT"); (1, bs "FUTEX_WAKE"); (2, bs "FUTEX_FD"); (3, bs "FUTEX_REQUEUE"); (4, bs "FUTEX_CMP_REQUEUE"); (5, bs "FUTEX_WAKE_OP");
   (6, bs "FUTEX_LOCK_PI"); (7, bs "FUTEX_UNLOCK_PI"); (8, bs "FUTEX_TRYLOCK_PI"); (9, bs "FUTEX_WAIT_BITSET"); (10, bs "FUTEX_WAKE_BITSET");
   (11, bs "FUTEX_WAIT_REQUEUE_PI"); (12, bs "FUTEX_CMP_REQUEUE_PI"); (13, bs "FUTEX_LOCK_PI2"); (128, bs "FUTEX_PRIVATE_FLAG"); (256, bs "FUTEX_CLOCK_REALTIME");
   (128 + 0, bs "FUTEX_WAIT_PRIVATE"); (128 + 1, bs "FUTEX_WAKE_PRIVATE"); (128 + 3, bs "FUTEX_REQUEUE_PRIVATE"); (128 + 4, bs "FUTEX_CMP_REQUEUE_PRIVATE");
   (128 + 5, bs "FUTEX_WAKE_OP_PRIVATE"); (128 + 6, bs "FUTEX_LOCK_PI_PRIVATE"); (128 + 7, bs "FUTEX_UNLOCK_PI_PRIVATE"); (128 + 8, bs "FUTEX_TRYLOCK_PI_PRIVATE");
   (128 + 9, bs "FUTEX_WAIT_BITSET_PRIVATE"); (128 + 10, bs "FUTEX_WAKE_BITSET_PRIVATE"); (128 + 11, bs "FUTEX_WAIT_REQUEUE_PI_PRIVATE");
   (128 + 12, bs "FUTEX_CMP_REQUEUE_PI_PRIVATE"); (128 + 13, bs "FUTEX_LOCK_PI2_PRIVATE");
   (0xffffffff, bs "FUTEX_BITSET_MATCH_ANY"); (8, bs "FUTEX_OP_OPARG_SHIFT");
   (0, bs "FUTEX_OP_SET"); (1, bs "FUTEX_OP_ADD"); (2, bs "FUTEX_OP_OR"); (3, bs "FUTEX_OP_ANDN"); (4, bs "FUTEX_OP_XOR");
   (0, bs "FUTEX_OP_CMP_EQ"); (1, bs "FUTEX_OP_CMP_NE"); (2, bs "FUTEX_OP_CMP_LT"); (3, bs "FUTEX_OP_CMP_LE"); (4, bs "FUTEX_OP_CMP_GT"); (5, bs "FUTEX_OP_CMP_GE")].
(** socket(2) *)
Definition sock_names : list (N * list N) :=
  [(1, bs "SOCK_STREAM"); (2, bs "SOCK_DGRAM"); (3, bs "SOCK_RAW"); (4, bs "SOCK_RDM"); (5, bs "SOCK_SEQPACKET"); (6, bs "SOCK_DCCP"); (10, bs "SOCK_PACKET");
   (0x800, bs "SOCK_NONBLOCK"); (0x80000, bs "SOCK_CLOEXEC")].
(** memfd_create(2) *)
Definition memfd_names : list (N * list N) :=
  [(1, bs "MFD_CLOEXEC"); (2, bs "MFD_ALLOW_SEALING"); (4, bs "MFD_HUGETLB"); (8, bs "MFD_NOEXEC_SEAL"); (0x10, bs "MFD_EXEC"); (26, bs "MFD_HUGE_SHIFT")].
(** <sys/personality.h>: the types that are numbers below 256, and the flags *)
Definition personality_names : list (N * list N) :=
  [(0x0020000, bs "UNAME26"); (0x0040000, bs "ADDR_NO_RANDOMIZE"); (0x0080000, bs "FDPIC_FUNCPTRS"); (0x0100000, bs "MMAP_PAGE_ZERO");
   (0x0200000, bs "ADDR_COMPAT_LAYOUT"); (0x0400000, bs "READ_IMPLIES_EXEC"); (0x0800000, bs "ADDR_LIMIT_32BIT"); (0x1000000, bs "SHORT_INODE");
   (0x2000000, bs "WHOLE_SECONDS"); (0x4000000, bs "STICKY_TIMEOUTS"); (0x8000000, bs "ADDR_LIMIT_3GB");
   (0, bs "PER_LINUX"); (6, bs "PER_BSD"); (8, bs "PER_LINUX32"); (0xc, bs "PER_RISCOS"); (0xf, bs "PER_OSF4"); (0x10, bs "PER_HPUX"); (0xff, bs "PER_MASK")].
(** ioprio_set(2) *)
Definition ioprio_names : list (N * list N) :=
  [(0, bs "IOPRIO_CLASS_NONE"); (1, bs "IOPRIO_CLASS_RT"); (2, bs "IOPRIO_CLASS_BE"); (3, bs "IOPRIO_CLASS_IDLE")].
Definition IOPRIO_PRIO_VALUE (class data : N) : N := N.lor (N.shiftl class 13) data.
(** quotactl(2), <linux/quota.h>, <linux/dqblk_xfs.h> ('X' << 8); the first and second versions of the commands *)
Definition quota_names : list (N * list N) :=
  [(0x800001, bs "Q_SYNC"); (0x800002, bs "Q_QUOTAON"); (0x800003, bs "Q_QUOTAOFF"); (0x800004, bs "Q_GETFMT"); (0x800005, bs "Q_GETINFO");
   (0x800006, bs "Q_SETINFO"); (0x800007, bs "Q_GETQUOTA"); (0x800008, bs "Q_SETQUOTA"); (0x800009, bs "Q_GETNEXTQUOTA");
   (88 * 256 + 1, bs "Q_XQUOTAON"); (88 * 256 + 2, bs "Q_XQUOTAOFF"); (88 * 256 + 3, bs "Q_XGETQUOTA"); (88 * 256 + 4, bs "Q_XSETQLIM");
   (88 * 256 + 5, bs "Q_XGETQSTAT"); (88 * 256 + 6, bs "Q_XQUOTARM"); (88 * 256 + 7, bs "Q_XQUOTASYNC"); (88 * 256 + 8, bs "Q_XGETQSTATV"); (88 * 256 + 9, bs "Q_XGETNEXTQUOTA");
   (0x0100, bs "Q_V1_QUOTAON"); (0x0200, bs "Q_V1_QUOTAOFF"); (0x0300, bs "Q_V1_GETQUOTA"); (0x0400, bs "Q_V1_SETQUOTA"); (0x0500, bs "Q_V1_SETUSE"); (0x0600, bs "Q_V1_SYNC");
   (0x0700, bs "Q_SETQLIM"); (0x0800, bs "Q_V1_GETSTATS"); (0x1000, bs "Q_V1_RSQUASH"); (0x0900, bs "Q_V2_GETINFO"); (0x0a00, bs "Q_V2_SETINFO"); (0x0b00, bs "Q_V2_SETGRACE");
   (0x0c00, bs "Q_V2_SETFLAGS"); (0x0d00, bs "Q_V2_GETQUOTA"); (0x0e00, bs "Q_V2_SETQUOTA"); (0x0f00, bs "Q_V2_SETUSE"); (0x1100, bs "Q_V2_GETSTATS");
   (0, bs "USRQUOTA"); (1, bs "GRPQUOTA"); (2, bs "PRJQUOTA")].
Definition QCMD (cmd type : N) : N := N.lor (N.shiftl cmd 8) (N.land type 0xff).
(** signal(7), with the signals above 32 numbered from SIGRTMIN; clone(2) *)
Definition sig_names : list (N * list N) :=
  [(1, bs "SIGHUP"); (2, bs "SIGINT"); (3, bs "SIGQUIT"); (4, bs "SIGILL"); (5, bs "SIGTRAP"); (6, bs "SIGABRT"); (7, bs "SIGBUS"); (8, bs "SIGFPE");
   (9, bs "SIGKILL"); (10, bs "SIGUSR1"); (11, bs "SIGSEGV"); (12, bs "SIGUSR2"); (13, bs "SIGPIPE"); (14, bs "SIGALRM"); (15, bs "SIGTERM"); (16, bs "SIGSTKFLT");
   (17, bs "SIGCHLD"); (18, bs "SIGCONT"); (19, bs "SIGSTOP"); (20, bs "SIGTSTP"); (21, bs "SIGTTIN"); (22, bs "SIGTTOU"); (23, bs "SIGURG"); (24, bs "SIGXCPU");
   (25, bs "SIGXFSZ"); (26, bs "SIGVTALRM"); (27, bs "SIGPROF"); (28, bs "SIGWINCH"); (29, bs "SIGIO"); (30, bs "SIGPWR"); (31, bs "SIGSYS"); (32, bs "SIGRTMIN")]
  ++ map (fun k => (32 + k, bs "SIGRT_" ++ pr_num 10 k)) (map N.of_nat (seq 1 32)).
Definition clone_names : list (N * list N) :=
  [(0x00000100, bs "CLONE_VM"); (0x00000200, bs "CLONE_FS"); (0x00000400, bs "CLONE_FILES"); (0x00000800, bs "CLONE_SIGHAND"); (0x00001000, bs "CLONE_PIDFD");
   (0x00002000, bs "CLONE_PTRACE"); (0x00004000, bs "CLONE_VFORK"); (0x00008000, bs "CLONE_PARENT"); (0x00010000, bs "CLONE_THREAD"); (0x00020000, bs "CLONE_NEWNS");
   (0x00040000, bs "CLONE_SYSVSEM"); (0x00080000, bs "CLONE_SETTLS"); (0x00100000, bs "CLONE_PARENT_SETTID"); (0x00200000, bs "CLONE_CHILD_CLEARTID");
   (0x00800000, bs "CLONE_UNTRACED"); (0x01000000, bs "CLONE_CHILD_SETTID"); (0x02000000, bs "CLONE_NEWCGROUP"); (0x04000000, bs "CLONE_NEWUTS");
   (0x08000000, bs "CLONE_NEWIPC"); (0x10000000, bs "CLONE_NEWUSER"); (0x20000000, bs "CLONE_NEWPID"); (0x40000000, bs "CLONE_NEWNET"); (0x80000000, bs "CLONE_IO")]
  ++ sig_names.

(** a call of a macro with two arguments *)
Definition macro (name : list N) (f : N -> N -> N) (names : list (N * list N)) (text : list N) (v : N) : Prop :=
  exists a b x y, text = name ++ bs "(" ++ a ++ bs ", " ++ b ++ bs ")" /\ ~ In 44 a /\ ~ In 41 b /\ denotes names a x /\ denotes names b y /\ f x y = v.
(** abbrev: the expression; raw: the number; verbose: the number with the expression in a comment *)
Definition styled (P : list N -> N -> Prop) (st : xstyle_t) (text : list N) (v : N) : Prop :=
  match st with
  | XABBREV => P text v
  | XRAW => c_number text = Some (Z.of_N v)
  | XVERBOSE => exists n t, text = n ++ bs " /* " ++ t ++ bs " */" /\ c_number n = Some (Z.of_N v) /\ P t v
  end.

(** ---- which arguments are shown ---- *)
(** futex(2): the arguments of each operation after the futex word and the operation *)
Inductive futex_arg := VAL | TIMEOUT | VAL2 | UADDR2 | VAL3.
Definition futex_takes : list (list N * list futex_arg) :=
  [(bs "FUTEX_WAIT", [VAL; TIMEOUT]); (bs "FUTEX_WAKE", [VAL]); (bs "FUTEX_FD", [VAL]); (bs "FUTEX_REQUEUE", [VAL; VAL2; UADDR2]);
   (bs "FUTEX_CMP_REQUEUE", [VAL; VAL2; UADDR2; VAL3]); (bs "FUTEX_WAKE_OP", [VAL; VAL2; UADDR2; VAL3]); (bs "FUTEX_LOCK_PI", [TIMEOUT]);
   (bs "FUTEX_UNLOCK_PI", []); (bs "FUTEX_TRYLOCK_PI", []); (bs "FUTEX_WAIT_BITSET", [VAL; TIMEOUT; VAL3]); (bs "FUTEX_WAKE_BITSET", [VAL; VAL3]);
   (bs "FUTEX_WAIT_REQUEUE_PI", [VAL; TIMEOUT; UADDR2]); (bs "FUTEX_CMP_REQUEUE_PI", [VAL; VAL2; UADDR2; VAL3]); (bs "FUTEX_LOCK_PI2", [TIMEOUT])].
(** NULL or a number *)
Definition address (text : list N) (a : N) : Prop := a = 0 /\ text = bs "NULL" \/ a <> 0 /\ c_number text = Some (Z.of_N a).
(** [text] shows the argument; the integers are 32-bit ones *)
Definition shows_arg (ts : N -> list N) (val a3 uaddr2 val3 : N) (a : futex_arg) (text : list N) : Prop :=
  match a with
  | VAL => denotes futex_names text (val mod 2^32)
  | TIMEOUT => text = ts a3
  | VAL2 => denotes futex_names text (a3 mod 2^32)
  | UADDR2 => address text uaddr2
  | VAL3 => denotes futex_names text (val3 mod 2^32)
  end.
(** clone(2): the flag bits on which each further argument depends *)
Definition CLONE_PIDFD : N := 12.
Definition CLONE_SETTLS : N := 19.
Definition CLONE_PARENT_SETTID : N := 20.
Definition CLONE_CHILD_CLEARTID : N := 21.
Definition CLONE_CHILD_SETTID : N := 24.
(** the order of the arguments of the raw system call on x86-64, and on i386 *)
Inductive clone_arg := FLAGS | STACK | PARENT_TID | CHILD_TID | TLS.
Definition clone_order (i386 : bool) : list clone_arg :=
  if i386 then [FLAGS; STACK; PARENT_TID; TLS; CHILD_TID] else [FLAGS; STACK; PARENT_TID; CHILD_TID; TLS].
