(** Values composed of several constants: src/futex.c, src/net.c:91-106, src/memfd_create.c, src/personality.c,
    src/ioprio.c, src/quota.c:443-466, src/clone.c:147-232, src/signal.c (signame, printsignal).
    Tables are those of Linux on x86_64. *)
From Verif Require Import Base Printf BitsModel RetModel XlatModel ModeModel.
Local Open Scope N_scope.

(** printxval, src/defs.h:1636-1640, for one table *)
Definition printxval (st : xstyle_t) (x : xlat) (v : N) (dflt : option (list N)) : list N := printxvals_ex v dflt st FMT_X [x].
(** printflags_in, printflags64_in: src/defs.h:1618-1628 *)
Definition printflags_in (st : xstyle_t) (x : xlat) (v : N) (dflt : option (list N)) : list N := printflags_ex v dflt st FMT_X [x].
(** whether printxval returns non-zero, src/xlat.c:226-261: a name is found; never with -X raw *)
Definition has_name (st : xstyle_t) (x : xlat) (v : N) : bool :=
  match st with XRAW => false | _ => match xlookup x v with Some _ => true | None => false end end.
Definition normal (l : list (N * list N)) : xlat := {| ty := XT_NORMAL; data := tab l |}.
Definition indexed (l : list (N * list N)) : xlat := {| ty := XT_INDEXED; data := tab l |}.
Definition bar : list N := bs "|".
Definition shl : list N := bs "<<".

(** ---- src/futex.c ---- *)
(** src/xlat/futexops.in *)
Definition futexops : xlat := normal
  [(0, bs "FUTEX_WAIT"); (1, bs "FUTEX_WAKE"); (2, bs "FUTEX_FD"); (3, bs "FUTEX_REQUEUE"); (4, bs "FUTEX_CMP_REQUEUE"); (5, bs "FUTEX_WAKE_OP");
   (6, bs "FUTEX_LOCK_PI"); (7, bs "FUTEX_UNLOCK_PI"); (8, bs "FUTEX_TRYLOCK_PI"); (9, bs "FUTEX_WAIT_BITSET"); (10, bs "FUTEX_WAKE_BITSET");
   (11, bs "FUTEX_WAIT_REQUEUE_PI"); (12, bs "FUTEX_CMP_REQUEUE_PI"); (13, bs "FUTEX_LOCK_PI2");
   (128, bs "FUTEX_WAIT_PRIVATE"); (129, bs "FUTEX_WAKE_PRIVATE"); (130, bs "FUTEX_FD|FUTEX_PRIVATE_FLAG"); (131, bs "FUTEX_REQUEUE_PRIVATE");
   (132, bs "FUTEX_CMP_REQUEUE_PRIVATE"); (133, bs "FUTEX_WAKE_OP_PRIVATE"); (134, bs "FUTEX_LOCK_PI_PRIVATE"); (135, bs "FUTEX_UNLOCK_PI_PRIVATE");
   (136, bs "FUTEX_TRYLOCK_PI_PRIVATE"); (137, bs "FUTEX_WAIT_BITSET_PRIVATE"); (138, bs "FUTEX_WAKE_BITSET_PRIVATE");
   (139, bs "FUTEX_WAIT_REQUEUE_PI_PRIVATE"); (140, bs "FUTEX_CMP_REQUEUE_PI_PRIVATE"); (141, bs "FUTEX_LOCK_PI2_PRIVATE");
   (256, bs "FUTEX_WAIT|FUTEX_CLOCK_REALTIME"); (384, bs "FUTEX_WAIT_PRIVATE|FUTEX_CLOCK_REALTIME");
   (265, bs "FUTEX_WAIT_BITSET|FUTEX_CLOCK_REALTIME"); (393, bs "FUTEX_WAIT_BITSET_PRIVATE|FUTEX_CLOCK_REALTIME");
   (267, bs "FUTEX_WAIT_REQUEUE_PI|FUTEX_CLOCK_REALTIME"); (395, bs "FUTEX_WAIT_REQUEUE_PI_PRIVATE|FUTEX_CLOCK_REALTIME")].
(** src/xlat/futexwakeops.in, futexwakecmps.in, futexbitset.in *)
Definition futexwakeops : xlat := indexed [(0, bs "FUTEX_OP_SET"); (1, bs "FUTEX_OP_ADD"); (2, bs "FUTEX_OP_OR"); (3, bs "FUTEX_OP_ANDN"); (4, bs "FUTEX_OP_XOR")].
Definition futexwakecmps : xlat := indexed [(0, bs "FUTEX_OP_CMP_EQ"); (1, bs "FUTEX_OP_CMP_NE"); (2, bs "FUTEX_OP_CMP_LT"); (3, bs "FUTEX_OP_CMP_LE"); (4, bs "FUTEX_OP_CMP_GT"); (5, bs "FUTEX_OP_CMP_GE")].
Definition futexbitset : xlat := normal [(4294967295, bs "FUTEX_BITSET_MATCH_ANY")].
(** print_xlat, src/xlat.h: a constant with its name *)
Definition print_xlat (st : xstyle_t) (v : N) (name : list N) : list N :=
  match st with XABBREV => name | XRAW => pr_hex v | XVERBOSE => pr_hex v ++ comment (Some name) end.
(** src/futex.c:114-146 *)
Definition wake_op (st : xstyle_t) (val3 : N) : list N :=
  (if negb (N.land (N.shiftr val3 28) 8 =? 0) then print_xlat st 8 (bs "FUTEX_OP_OPARG_SHIFT") ++ shl ++ pr_num 10 28 ++ bar else [])
  ++ printxval st futexwakeops (N.land (N.shiftr val3 28) 7) None ++ shl ++ pr_num 10 28
  ++ comment (if has_name st futexwakeops (N.land (N.shiftr val3 28) 7) then None else Some (bs "FUTEX_OP_???")) ++ bar
  ++ pr_hex (N.land (N.shiftr val3 12) 4095) ++ shl ++ pr_num 10 12 ++ bar
  ++ printxval st futexwakecmps (N.land (N.shiftr val3 24) 15) None ++ shl ++ pr_num 10 24
  ++ comment (if has_name st futexwakecmps (N.land (N.shiftr val3 24) 15) then None else Some (bs "FUTEX_OP_CMP_???")) ++ bar
  ++ pr_hex (N.land val3 4095).
(** printaddr, src/util.c:399-406 *)
Definition printaddr (a : N) : list N := if a =? 0 then bs "NULL" else pr_hex a.
(** src/futex.c:29-182; [ts] is the text of print_ts for the address of the timeout *)
Definition do_futex (st : xstyle_t) (ts : N -> list N) (a0 a1 a2 a3 a4 a5 : N) : list (list N) :=
  let op := u32 a1 in let cmd := N.land op 127 in
  let val := pr_num 10 (u32 a2) in let val2 := pr_num 10 (u32 a3) in let val3 := u32 a5 in
  let timeout := ts a3 in let uaddr2 := printaddr a4 in
  let bitset := printxval st futexbitset val3 None in
  [printaddr a0; printxval st futexops op (Some (bs "FUTEX_???"))] ++
  (if cmd =? 0 then [val; timeout]
   else if (cmd =? 6) || (cmd =? 13) then [timeout]
   else if cmd =? 9 then [val; timeout; bitset]
   else if cmd =? 10 then [val; bitset]
   else if cmd =? 3 then [val; val2; uaddr2]
   else if (cmd =? 4) || (cmd =? 12) then [val; val2; uaddr2; pr_num 10 val3]
   else if cmd =? 5 then [val; val2; uaddr2; wake_op st val3]
   else if cmd =? 11 then [val; timeout; uaddr2]
   else if (cmd =? 2) || (cmd =? 1) then [val]
   else if (cmd =? 7) || (cmd =? 8) then []
   else [val; printaddr a3; uaddr2; pr_hex val3]).

(** ---- src/net.c:91-106 tprint_sock_type; src/xlat/socktypes.in, sock_type_flags.in ---- *)
Definition socktypes : xlat := normal
  [(1, bs "SOCK_STREAM"); (2, bs "SOCK_DGRAM"); (3, bs "SOCK_RAW"); (4, bs "SOCK_RDM"); (5, bs "SOCK_SEQPACKET"); (6, bs "SOCK_DCCP"); (10, bs "SOCK_PACKET")].
Definition sock_type_flags : xlat := normal [(524288, bs "SOCK_CLOEXEC"); (2048, bs "SOCK_NONBLOCK")].
Definition tprint_sock_type (st : xstyle_t) (flags : N) : list N :=
  match xlookup socktypes (N.land flags 15) with
  | Some str =>
      let rest := N.ldiff flags 15 in
      print_xlat st (N.land flags 15) str ++ (if rest =? 0 then [] else bar ++ printflags_in st sock_type_flags rest (Some (bs "SOCK_???")))
  | None => printflags_in st sock_type_flags flags (Some (bs "SOCK_???"))
  end.

(** ---- src/memfd_create.c:24-64; MFD_HUGE_MASK << MFD_HUGE_SHIFT is 63 << 26 ---- *)
Definition memfd_create_flags : xlat := normal
  [(1, bs "MFD_CLOEXEC"); (2, bs "MFD_ALLOW_SEALING"); (4, bs "MFD_HUGETLB"); (8, bs "MFD_NOEXEC_SEAL"); (16, bs "MFD_EXEC")].
Definition HUGE_MASK : N := 4227858432. (* 0xfc000000 *)
Definition memfd_flags (st : xstyle_t) (flags : N) : list N :=
  let num := (match st with XABBREV => if flags =? 0 then pr_hex flags else [] | _ => pr_hex flags end) in
  if (flags =? 0) || (match st with XRAW => true | _ => false end) then num
  else
    let huge := N.land flags HUGE_MASK in
    let fl := N.ldiff flags HUGE_MASK in
    let text := (if negb (fl =? 0) || (huge =? 0) then printflags_ex fl (Some (bs "MFD_???")) XABBREV FMT_X [memfd_create_flags] else [])
             ++ (if negb (huge =? 0) then (if negb (fl =? 0) then bar else []) ++ pr_num 10 (N.shiftr huge 26) ++ shl ++ bs "MFD_HUGE_SHIFT" else []) in
    num ++ (match st with XVERBOSE => bs " /* " ++ text ++ bs " */" | _ => text end).

(** ---- src/personality.c:14-47; src/xlat/personality_types.in, personality_flags.in ---- *)
Definition personality_types : xlat := normal
  [(0, bs "PER_LINUX"); (8388608, bs "PER_LINUX_32BIT"); (524288, bs "PER_LINUX_FDPIC"); (68157441, bs "PER_SVR4"); (83886082, bs "PER_SVR3");
   (117440515, bs "PER_SCOSVR3"); (100663299, bs "PER_OSR5"); (83886084, bs "PER_WYSEV386"); (67108869, bs "PER_ISCR4"); (6, bs "PER_BSD");
   (67108870, bs "PER_SUNOS"); (83886087, bs "PER_XENIX"); (8, bs "PER_LINUX32"); (134217736, bs "PER_LINUX32_3GB"); (67108873, bs "PER_IRIX32");
   (67108874, bs "PER_IRIXN32"); (67108875, bs "PER_IRIX64"); (12, bs "PER_RISCOS"); (67108877, bs "PER_SOLARIS"); (68157454, bs "PER_UW7");
   (15, bs "PER_OSF4"); (16, bs "PER_HPUX"); (255, bs "PER_MASK")].
Definition personality_flags : xlat := normal
  [(131072, bs "UNAME26"); (262144, bs "ADDR_NO_RANDOMIZE"); (524288, bs "FDPIC_FUNCPTRS"); (1048576, bs "MMAP_PAGE_ZERO");
   (2097152, bs "ADDR_COMPAT_LAYOUT"); (4194304, bs "READ_IMPLIES_EXEC"); (8388608, bs "ADDR_LIMIT_32BIT"); (16777216, bs "SHORT_INODE");
   (33554432, bs "WHOLE_SECONDS"); (67108864, bs "STICKY_TIMEOUTS"); (134217728, bs "ADDR_LIMIT_3GB")].
(** src/personality.c:18-33 *)
Definition personality_arg (st : xstyle_t) (arg : N) : list N :=
  let pers := u32 arg in
  if pers =? 4294967295 then pr_hex pers
  else printxval st personality_types (N.land pers 255) (Some (bs "PER_???"))
       ++ (if N.ldiff pers 255 =? 0 then [] else bar ++ printflags_in st personality_flags (N.ldiff pers 255) None).
(** xsnprintf, src/xstring.h: an error when the text does not fit *)
Definition snprintf (cap : N) (t : list N) : res (list N) := if N.of_nat (length t) <? cap then Ok t else Die.
(** src/personality.c:38-46: strcpy into what is left of outstr[1024] *)
Definition personality_ret (st : xstyle_t) (rval : N) : res (list N) :=
  let pers := u32 rval in
  rlet p := snprintf 1024 (sprintxval_ex personality_types (N.land pers 255) (Some (bs "PER_???")) st FMT_X) in
  if N.ldiff pers 255 =? 0 then Ok p
  else rlet r := sprintflags_ex bar personality_flags (N.ldiff pers 255) 0 st false FMT_X in
       match r with Some t => stpcpy 1024 p t | None => Undef end.

(** ---- src/ioprio.c:15-50 ---- *)
Definition ioprio_class : xlat := indexed [(0, bs "IOPRIO_CLASS_NONE"); (1, bs "IOPRIO_CLASS_RT"); (2, bs "IOPRIO_CLASS_BE"); (3, bs "IOPRIO_CLASS_IDLE")].
(** src/ioprio.c:21-35 *)
Definition sprint_ioprio (st : xstyle_t) (p : N) : res (list N) :=
  rlet c := snprintf 64 (sprintxval_ex ioprio_class (N.shiftr p 13) (Some (bs "IOPRIO_CLASS_???")) st FMT_X) in
  snprintf 256 (bs "IOPRIO_PRIO_VALUE(" ++ c ++ bs ", " ++ pr_num 10 (N.land p 8191) ++ bs ")").
(** src/ioprio.c:37-50 print_ioprio *)
Definition print_ioprio (st : xstyle_t) (p : N) : res (list N) :=
  match st with
  | XABBREV => sprint_ioprio st p
  | XRAW => Ok (pr_hex p)
  | XVERBOSE => rlet t := sprint_ioprio st p in Ok (pr_hex p ++ comment (Some t))
  end.

(** ---- src/quota.c:16-22, 443-466 ---- *)
Definition quotacmds : xlat := normal
  [(0x100, bs "Q_V1_QUOTAON"); (0x200, bs "Q_V1_QUOTAOFF"); (0x300, bs "Q_V1_GETQUOTA"); (0x400, bs "Q_V1_SETQUOTA"); (0x500, bs "Q_V1_SETUSE");
   (0x600, bs "Q_V1_SYNC"); (0x700, bs "Q_SETQLIM"); (0x800, bs "Q_V1_GETSTATS"); (0x1000, bs "Q_V1_RSQUASH");
   (0xd00, bs "Q_V2_GETQUOTA"); (0xe00, bs "Q_V2_SETQUOTA"); (0xf00, bs "Q_V2_SETUSE"); (0x900, bs "Q_V2_GETINFO"); (0xa00, bs "Q_V2_SETINFO");
   (0xb00, bs "Q_V2_SETGRACE"); (0xc00, bs "Q_V2_SETFLAGS"); (0x1100, bs "Q_V2_GETSTATS");
   (0x800001, bs "Q_SYNC"); (0x800002, bs "Q_QUOTAON"); (0x800003, bs "Q_QUOTAOFF"); (0x800004, bs "Q_GETFMT"); (0x800005, bs "Q_GETINFO");
   (0x800006, bs "Q_SETINFO"); (0x800007, bs "Q_GETQUOTA"); (0x800008, bs "Q_SETQUOTA"); (0x800009, bs "Q_GETNEXTQUOTA");
   (0x5801, bs "Q_XQUOTAON"); (0x5802, bs "Q_XQUOTAOFF"); (0x5803, bs "Q_XGETQUOTA"); (0x5804, bs "Q_XSETQLIM"); (0x5805, bs "Q_XGETQSTAT");
   (0x5806, bs "Q_XQUOTARM"); (0x5807, bs "Q_XQUOTASYNC"); (0x5808, bs "Q_XGETQSTATV"); (0x5809, bs "Q_XGETNEXTQUOTA")].
Definition quotatypes : xlat := indexed [(0, bs "USRQUOTA"); (1, bs "GRPQUOTA"); (2, bs "PRJQUOTA")].
Definition print_qcmd (st : xstyle_t) (q : N) : list N :=
  let text := bs "QCMD(" ++ printxvals_ex (N.shiftr q 8) (Some (bs "Q_???")) XABBREV FMT_X [quotacmds] ++ bs ", "
                         ++ printxvals_ex (N.land q 255) (Some (bs "???QUOTA")) XABBREV FMT_X [quotatypes] ++ bs ")" in
  match st with
  | XABBREV => text
  | XRAW => pr_num 10 q
  | XVERBOSE => pr_num 10 q ++ bs " /* " ++ text ++ bs " */"
  end.

(** ---- src/signal.c:106-124 (signame), 235-246 (printsignal): the number is an int ---- *)
Definition signame (g : sigcfg) (sig : N) : option (list N) :=
  if sig =? 0 then None
  else match nth_error (signalent g) (N.to_nat sig) with
       | Some n => Some n
       | None => match rtmax g with
                 | Some mx => if (rtmin g <=? sig) && (sig <=? mx) then Some (bs "SIGRT_" ++ pr_num 10 (sig - rtmin g)) else None
                 | None => None
                 end
       end.
Definition printsignal (g : sigcfg) (st : xstyle_t) (sig : N) : list N :=
  match signame g sig with
  | None => pr_z (sgn32 sig)
  | Some s => match st with XABBREV => s | XRAW => pr_z (sgn32 sig) | XVERBOSE => pr_z (sgn32 sig) ++ comment (Some s) end
  end.

(** ---- src/clone.c:147-232; src/xlat/clone_flags.in.  x86: [p1] is current_personality == 1, where the last two
    arguments are exchanged.  Namespaces (--namespace=new) change the text after the result only. ---- *)
Definition clone_flags : xlat := normal
  [(0x100, bs "CLONE_VM"); (0x200, bs "CLONE_FS"); (0x400, bs "CLONE_FILES"); (0x800, bs "CLONE_SIGHAND"); (0x1000, bs "CLONE_PIDFD");
   (0x2000, bs "CLONE_PTRACE"); (0x4000, bs "CLONE_VFORK"); (0x8000, bs "CLONE_PARENT"); (0x10000, bs "CLONE_THREAD"); (0x20000, bs "CLONE_NEWNS");
   (0x40000, bs "CLONE_SYSVSEM"); (0x80000, bs "CLONE_SETTLS"); (0x100000, bs "CLONE_PARENT_SETTID"); (0x200000, bs "CLONE_CHILD_CLEARTID");
   (0x800000, bs "CLONE_UNTRACED"); (0x1000000, bs "CLONE_CHILD_SETTID"); (0x2000000, bs "CLONE_NEWCGROUP"); (0x4000000, bs "CLONE_NEWUTS");
   (0x8000000, bs "CLONE_NEWIPC"); (0x10000000, bs "CLONE_NEWUSER"); (0x20000000, bs "CLONE_NEWPID"); (0x40000000, bs "CLONE_NEWNET"); (0x80000000, bs "CLONE_IO")].
Definition clone_flags_text (g : sigcfg) (st : xstyle_t) (arg : N) : list N :=
  let flags := N.ldiff arg 255 in let sig := N.land arg 255 in
  if negb (flags =? 0) then printflags_in st clone_flags flags (Some (bs "CLONE_???")) ++ (if negb (sig =? 0) then bar ++ printsignal g st sig else [])
  else printsignal g st sig.
(** the arguments on entering, and whether decoding ends there *)
Definition clone_enter (g : sigcfg) (st : xstyle_t) (show_ns : bool) (args : N -> N) : list (list N) * bool :=
  let flags := N.ldiff (args 0) 255 in
  let nsflags := if show_ns then 0x7e020080 else 0 in
  ([bs "child_stack=" ++ printaddr (args 1); bs "flags=" ++ clone_flags_text g st (args 0)],
   N.land flags (N.lor (N.lor (N.lor (N.lor (N.lor 0x100000 0x1000) 0x1000000) 0x200000) 0x80000) nsflags) =? 0).
(** the arguments on leaving; [tid], [fd]: texts of printnum_pid and printnum_fd, [tls] of print_tls_arg *)
Definition clone_exit (tid fd tls : N -> list N) (p1 : bool) (args : N -> N) : list (list N) :=
  let flags := N.ldiff (args 0) 255 in
  (if negb (N.land flags (N.lor 0x100000 0x1000) =? 0)
   then [bs "parent_tid=" ++ (if negb (N.land flags 0x100000 =? 0) then tid (args 2) else fd (args 2))] else [])
  ++ (if negb (N.land flags 0x80000 =? 0) then [bs "tls=" ++ tls (args (if p1 then 3 else 4))] else [])
  ++ (if negb (N.land flags (N.lor 0x1000000 0x200000) =? 0) then [bs "child_tidptr=" ++ printaddr (args (if p1 then 4 else 3))] else []).
Definition clone_args (g : sigcfg) (st : xstyle_t) (show_ns : bool) (tid fd tls : N -> list N) (p1 : bool) (args : N -> N) : list (list N) :=
  let (a, decoded) := clone_enter g st show_ns args in
  a ++ (if decoded then [] else clone_exit tid fd tls p1 args).
