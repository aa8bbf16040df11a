(** Model of the handling of options: init in src/strace.c:2241-3175 with qualify in src/filter_qualify.c:674-735.
    The options are those getopt_long returns, with their arguments.  Not modelled: -h, -V, -d, -E, -P, -S, -O, -u, -k and the other options for stacks, -i, -n, -A, tips;
    which texts of sets are valid (a parameter; C04, C05, C67), and failure of attaching. *)
From Verif Require Import Base StrtouModel QualModel.
Local Open Scope N_scope.

(** ** -e *)
Inductive kind := Trace | TraceFd | Abbrev | Verbose | Raw | Signals | Status | Quiet | Read | Write | Fault | Inject | Kvm | DecodeFd | DecodePid | Secontext | Namespace.
Definition kind_eq_dec (a b : kind) : {a = b} + {a <> b}. Proof. decide equality. Defined.
(** qual_options, filter_qualify.c:674-713 *)
Definition qual_options : list (list N * kind) :=
  [(bs "trace", Trace); (bs "t", Trace); (bs "trace-fd", TraceFd); (bs "trace-fds", TraceFd); (bs "fd", TraceFd); (bs "fds", TraceFd);
   (bs "abbrev", Abbrev); (bs "a", Abbrev); (bs "verbose", Verbose); (bs "v", Verbose); (bs "raw", Raw); (bs "x", Raw);
   (bs "signal", Signals); (bs "signals", Signals); (bs "s", Signals); (bs "status", Status);
   (bs "quiet", Quiet); (bs "silent", Quiet); (bs "silence", Quiet); (bs "q", Quiet); (bs "read", Read); (bs "reads", Read); (bs "r", Read);
   (bs "write", Write); (bs "writes", Write); (bs "w", Write); (bs "fault", Fault); (bs "inject", Inject); (bs "kvm", Kvm);
   (bs "decode-fd", DecodeFd); (bs "decode-fds", DecodeFd); (bs "decode-pid", DecodePid); (bs "decode-pids", DecodePid);
   (bs "secontext", Secontext); (bs "namespace", Namespace)].
(** str_strip_prefix_len, src/defs.h; None: [s] itself *)
Fixpoint strip_prefix (p s : list N) : option (list N) :=
  match p, s with [], _ => Some s | a :: p, b :: s => if a =? b then strip_prefix p s else None | _ :: _, [] => None end.
(** qualify, filter_qualify.c:715-735 *)
Fixpoint qualify_loop (o : list (list N * kind)) (s : list N) : kind * list N :=
  match o with
  | [] => (Trace, s)
  | (n, k) :: o => match strip_prefix n s with Some (61 :: v) => (k, v) | _ => qualify_loop o s end
  end.
Definition qualify (s : list N) : kind * list N := qualify_loop qual_options s.

(** ** The options *)
Inductive opt :=
| o_a (s : list N) | o_b (s : list N) | o_c | o_C | o_D | o_daemonize (s : option (list N)) | o_e (s : list N) | o_f | o_follow_forks | o_output_separately | o_F
| o_I (s : list N) | o_kill_on_exit | o_o (s : list N) | o_p (s : list N) | o_q | o_r (s : option (list N)) | o_s (s : list N) | o_t | o_timestamps (s : option (list N))
| o_T (s : option (list N)) | o_U | o_v | o_w | o_x | o_strings_in_hex (s : option (list N)) | o_X (s : list N) | o_y | o_Y | o_pidns | o_z | o_Z | o_seccomp_bpf
| o_syscall_limit (s : list N) | o_argv0 | o_always_show_pid
| o_qual (k : kind) (s : option (list N)).  (* --trace=..., --quiet=...: strace.c:2715-2765; only some of them take no argument *)
(** what is known besides: a program is given; the kernel supports PTRACE_O_EXITKILL and seccomp filters; the tracer's process; texts of sets that are accepted *)
Record env := { program : bool; exitkill : bool; seccomp_ok : bool; self : N; valid : kind -> list N -> bool }.

Definition dflt (k : kind) : option (list N) :=
  match k with Trace | Abbrev | Verbose | Status | Signals => Some (bs "all") | Quiet | DecodeFd | Secontext => Some (bs "none") | _ => None end.
(** The variables of the options.  tfmt: tflag_format, 0: NULL, 1: %T, 2: %s.  tdig, rflag, Tflag: the digits after the period instead of scale and width.
    xlat: 1 raw, 2 abbrev, 3 verbose.  quals: the text a set was last made of, instead of the set.  pid_pfx: print_pid_pfx. *)
Record st := {
  acolumn : N;
  max_strlen : N;
  cflag : N;
  daemonized : N;
  daemonized_long : N;
  followfork_short : N;
  followfork : bool;
  separately : bool;
  optF : bool;
  intr : N;
  kill_on_exit : bool;
  outfname : option (list N);
  procs : list N;
  qflag_short : N;
  rflag : option N;
  tflag_short : N;
  tflag_long : bool;
  tfmt : N;
  tdig : N;
  Tflag : option N;
  columns_set : bool;
  wallclock : bool;
  xflag : N;
  xflag_long : option N;
  xlat : N;
  yflag_short : N;
  seccomp : bool;
  syscall_limit : option N;
  argv0 : bool;
  show_pid : bool;
  detach : bool;
  quals : kind -> option (list N);
  injects : list (bool * list N);
  quiet_updated : bool;
  decode_fd_updated : bool;
  pid_pfx : bool }.
Definition set_acolumn (s : st) (x : N) : st := {| acolumn := x; max_strlen := max_strlen s; cflag := cflag s; daemonized := daemonized s; daemonized_long := daemonized_long s; followfork_short := followfork_short s; followfork := followfork s; separately := separately s; optF := optF s; intr := intr s; kill_on_exit := kill_on_exit s; outfname := outfname s; procs := procs s; qflag_short := qflag_short s; rflag := rflag s; tflag_short := tflag_short s; tflag_long := tflag_long s; tfmt := tfmt s; tdig := tdig s; Tflag := Tflag s; columns_set := columns_set s; wallclock := wallclock s; xflag := xflag s; xflag_long := xflag_long s; xlat := xlat s; yflag_short := yflag_short s; seccomp := seccomp s; syscall_limit := syscall_limit s; argv0 := argv0 s; show_pid := show_pid s; detach := detach s; quals := quals s; injects := injects s; quiet_updated := quiet_updated s; decode_fd_updated := decode_fd_updated s; pid_pfx := pid_pfx s |}.
Definition set_max_strlen (s : st) (x : N) : st := {| acolumn := acolumn s; max_strlen := x; cflag := cflag s; daemonized := daemonized s; daemonized_long := daemonized_long s; followfork_short := followfork_short s; followfork := followfork s; separately := separately s; optF := optF s; intr := intr s; kill_on_exit := kill_on_exit s; outfname := outfname s; procs := procs s; qflag_short := qflag_short s; rflag := rflag s; tflag_short := tflag_short s; tflag_long := tflag_long s; tfmt := tfmt s; tdig := tdig s; Tflag := Tflag s; columns_set := columns_set s; wallclock := wallclock s; xflag := xflag s; xflag_long := xflag_long s; xlat := xlat s; yflag_short := yflag_short s; seccomp := seccomp s; syscall_limit := syscall_limit s; argv0 := argv0 s; show_pid := show_pid s; detach := detach s; quals := quals s; injects := injects s; quiet_updated := quiet_updated s; decode_fd_updated := decode_fd_updated s; pid_pfx := pid_pfx s |}.
Definition set_cflag (s : st) (x : N) : st := {| acolumn := acolumn s; max_strlen := max_strlen s; cflag := x; daemonized := daemonized s; daemonized_long := daemonized_long s; followfork_short := followfork_short s; followfork := followfork s; separately := separately s; optF := optF s; intr := intr s; kill_on_exit := kill_on_exit s; outfname := outfname s; procs := procs s; qflag_short := qflag_short s; rflag := rflag s; tflag_short := tflag_short s; tflag_long := tflag_long s; tfmt := tfmt s; tdig := tdig s; Tflag := Tflag s; columns_set := columns_set s; wallclock := wallclock s; xflag := xflag s; xflag_long := xflag_long s; xlat := xlat s; yflag_short := yflag_short s; seccomp := seccomp s; syscall_limit := syscall_limit s; argv0 := argv0 s; show_pid := show_pid s; detach := detach s; quals := quals s; injects := injects s; quiet_updated := quiet_updated s; decode_fd_updated := decode_fd_updated s; pid_pfx := pid_pfx s |}.
Definition set_daemonized (s : st) (x : N) : st := {| acolumn := acolumn s; max_strlen := max_strlen s; cflag := cflag s; daemonized := x; daemonized_long := daemonized_long s; followfork_short := followfork_short s; followfork := followfork s; separately := separately s; optF := optF s; intr := intr s; kill_on_exit := kill_on_exit s; outfname := outfname s; procs := procs s; qflag_short := qflag_short s; rflag := rflag s; tflag_short := tflag_short s; tflag_long := tflag_long s; tfmt := tfmt s; tdig := tdig s; Tflag := Tflag s; columns_set := columns_set s; wallclock := wallclock s; xflag := xflag s; xflag_long := xflag_long s; xlat := xlat s; yflag_short := yflag_short s; seccomp := seccomp s; syscall_limit := syscall_limit s; argv0 := argv0 s; show_pid := show_pid s; detach := detach s; quals := quals s; injects := injects s; quiet_updated := quiet_updated s; decode_fd_updated := decode_fd_updated s; pid_pfx := pid_pfx s |}.
Definition set_daemonized_long (s : st) (x : N) : st := {| acolumn := acolumn s; max_strlen := max_strlen s; cflag := cflag s; daemonized := daemonized s; daemonized_long := x; followfork_short := followfork_short s; followfork := followfork s; separately := separately s; optF := optF s; intr := intr s; kill_on_exit := kill_on_exit s; outfname := outfname s; procs := procs s; qflag_short := qflag_short s; rflag := rflag s; tflag_short := tflag_short s; tflag_long := tflag_long s; tfmt := tfmt s; tdig := tdig s; Tflag := Tflag s; columns_set := columns_set s; wallclock := wallclock s; xflag := xflag s; xflag_long := xflag_long s; xlat := xlat s; yflag_short := yflag_short s; seccomp := seccomp s; syscall_limit := syscall_limit s; argv0 := argv0 s; show_pid := show_pid s; detach := detach s; quals := quals s; injects := injects s; quiet_updated := quiet_updated s; decode_fd_updated := decode_fd_updated s; pid_pfx := pid_pfx s |}.
Definition set_followfork_short (s : st) (x : N) : st := {| acolumn := acolumn s; max_strlen := max_strlen s; cflag := cflag s; daemonized := daemonized s; daemonized_long := daemonized_long s; followfork_short := x; followfork := followfork s; separately := separately s; optF := optF s; intr := intr s; kill_on_exit := kill_on_exit s; outfname := outfname s; procs := procs s; qflag_short := qflag_short s; rflag := rflag s; tflag_short := tflag_short s; tflag_long := tflag_long s; tfmt := tfmt s; tdig := tdig s; Tflag := Tflag s; columns_set := columns_set s; wallclock := wallclock s; xflag := xflag s; xflag_long := xflag_long s; xlat := xlat s; yflag_short := yflag_short s; seccomp := seccomp s; syscall_limit := syscall_limit s; argv0 := argv0 s; show_pid := show_pid s; detach := detach s; quals := quals s; injects := injects s; quiet_updated := quiet_updated s; decode_fd_updated := decode_fd_updated s; pid_pfx := pid_pfx s |}.
Definition set_followfork (s : st) (x : bool) : st := {| acolumn := acolumn s; max_strlen := max_strlen s; cflag := cflag s; daemonized := daemonized s; daemonized_long := daemonized_long s; followfork_short := followfork_short s; followfork := x; separately := separately s; optF := optF s; intr := intr s; kill_on_exit := kill_on_exit s; outfname := outfname s; procs := procs s; qflag_short := qflag_short s; rflag := rflag s; tflag_short := tflag_short s; tflag_long := tflag_long s; tfmt := tfmt s; tdig := tdig s; Tflag := Tflag s; columns_set := columns_set s; wallclock := wallclock s; xflag := xflag s; xflag_long := xflag_long s; xlat := xlat s; yflag_short := yflag_short s; seccomp := seccomp s; syscall_limit := syscall_limit s; argv0 := argv0 s; show_pid := show_pid s; detach := detach s; quals := quals s; injects := injects s; quiet_updated := quiet_updated s; decode_fd_updated := decode_fd_updated s; pid_pfx := pid_pfx s |}.
Definition set_separately (s : st) (x : bool) : st := {| acolumn := acolumn s; max_strlen := max_strlen s; cflag := cflag s; daemonized := daemonized s; daemonized_long := daemonized_long s; followfork_short := followfork_short s; followfork := followfork s; separately := x; optF := optF s; intr := intr s; kill_on_exit := kill_on_exit s; outfname := outfname s; procs := procs s; qflag_short := qflag_short s; rflag := rflag s; tflag_short := tflag_short s; tflag_long := tflag_long s; tfmt := tfmt s; tdig := tdig s; Tflag := Tflag s; columns_set := columns_set s; wallclock := wallclock s; xflag := xflag s; xflag_long := xflag_long s; xlat := xlat s; yflag_short := yflag_short s; seccomp := seccomp s; syscall_limit := syscall_limit s; argv0 := argv0 s; show_pid := show_pid s; detach := detach s; quals := quals s; injects := injects s; quiet_updated := quiet_updated s; decode_fd_updated := decode_fd_updated s; pid_pfx := pid_pfx s |}.
Definition set_optF (s : st) (x : bool) : st := {| acolumn := acolumn s; max_strlen := max_strlen s; cflag := cflag s; daemonized := daemonized s; daemonized_long := daemonized_long s; followfork_short := followfork_short s; followfork := followfork s; separately := separately s; optF := x; intr := intr s; kill_on_exit := kill_on_exit s; outfname := outfname s; procs := procs s; qflag_short := qflag_short s; rflag := rflag s; tflag_short := tflag_short s; tflag_long := tflag_long s; tfmt := tfmt s; tdig := tdig s; Tflag := Tflag s; columns_set := columns_set s; wallclock := wallclock s; xflag := xflag s; xflag_long := xflag_long s; xlat := xlat s; yflag_short := yflag_short s; seccomp := seccomp s; syscall_limit := syscall_limit s; argv0 := argv0 s; show_pid := show_pid s; detach := detach s; quals := quals s; injects := injects s; quiet_updated := quiet_updated s; decode_fd_updated := decode_fd_updated s; pid_pfx := pid_pfx s |}.
Definition set_intr (s : st) (x : N) : st := {| acolumn := acolumn s; max_strlen := max_strlen s; cflag := cflag s; daemonized := daemonized s; daemonized_long := daemonized_long s; followfork_short := followfork_short s; followfork := followfork s; separately := separately s; optF := optF s; intr := x; kill_on_exit := kill_on_exit s; outfname := outfname s; procs := procs s; qflag_short := qflag_short s; rflag := rflag s; tflag_short := tflag_short s; tflag_long := tflag_long s; tfmt := tfmt s; tdig := tdig s; Tflag := Tflag s; columns_set := columns_set s; wallclock := wallclock s; xflag := xflag s; xflag_long := xflag_long s; xlat := xlat s; yflag_short := yflag_short s; seccomp := seccomp s; syscall_limit := syscall_limit s; argv0 := argv0 s; show_pid := show_pid s; detach := detach s; quals := quals s; injects := injects s; quiet_updated := quiet_updated s; decode_fd_updated := decode_fd_updated s; pid_pfx := pid_pfx s |}.
Definition set_kill_on_exit (s : st) (x : bool) : st := {| acolumn := acolumn s; max_strlen := max_strlen s; cflag := cflag s; daemonized := daemonized s; daemonized_long := daemonized_long s; followfork_short := followfork_short s; followfork := followfork s; separately := separately s; optF := optF s; intr := intr s; kill_on_exit := x; outfname := outfname s; procs := procs s; qflag_short := qflag_short s; rflag := rflag s; tflag_short := tflag_short s; tflag_long := tflag_long s; tfmt := tfmt s; tdig := tdig s; Tflag := Tflag s; columns_set := columns_set s; wallclock := wallclock s; xflag := xflag s; xflag_long := xflag_long s; xlat := xlat s; yflag_short := yflag_short s; seccomp := seccomp s; syscall_limit := syscall_limit s; argv0 := argv0 s; show_pid := show_pid s; detach := detach s; quals := quals s; injects := injects s; quiet_updated := quiet_updated s; decode_fd_updated := decode_fd_updated s; pid_pfx := pid_pfx s |}.
Definition set_outfname (s : st) (x : option (list N)) : st := {| acolumn := acolumn s; max_strlen := max_strlen s; cflag := cflag s; daemonized := daemonized s; daemonized_long := daemonized_long s; followfork_short := followfork_short s; followfork := followfork s; separately := separately s; optF := optF s; intr := intr s; kill_on_exit := kill_on_exit s; outfname := x; procs := procs s; qflag_short := qflag_short s; rflag := rflag s; tflag_short := tflag_short s; tflag_long := tflag_long s; tfmt := tfmt s; tdig := tdig s; Tflag := Tflag s; columns_set := columns_set s; wallclock := wallclock s; xflag := xflag s; xflag_long := xflag_long s; xlat := xlat s; yflag_short := yflag_short s; seccomp := seccomp s; syscall_limit := syscall_limit s; argv0 := argv0 s; show_pid := show_pid s; detach := detach s; quals := quals s; injects := injects s; quiet_updated := quiet_updated s; decode_fd_updated := decode_fd_updated s; pid_pfx := pid_pfx s |}.
Definition set_procs (s : st) (x : list N) : st := {| acolumn := acolumn s; max_strlen := max_strlen s; cflag := cflag s; daemonized := daemonized s; daemonized_long := daemonized_long s; followfork_short := followfork_short s; followfork := followfork s; separately := separately s; optF := optF s; intr := intr s; kill_on_exit := kill_on_exit s; outfname := outfname s; procs := x; qflag_short := qflag_short s; rflag := rflag s; tflag_short := tflag_short s; tflag_long := tflag_long s; tfmt := tfmt s; tdig := tdig s; Tflag := Tflag s; columns_set := columns_set s; wallclock := wallclock s; xflag := xflag s; xflag_long := xflag_long s; xlat := xlat s; yflag_short := yflag_short s; seccomp := seccomp s; syscall_limit := syscall_limit s; argv0 := argv0 s; show_pid := show_pid s; detach := detach s; quals := quals s; injects := injects s; quiet_updated := quiet_updated s; decode_fd_updated := decode_fd_updated s; pid_pfx := pid_pfx s |}.
Definition set_qflag_short (s : st) (x : N) : st := {| acolumn := acolumn s; max_strlen := max_strlen s; cflag := cflag s; daemonized := daemonized s; daemonized_long := daemonized_long s; followfork_short := followfork_short s; followfork := followfork s; separately := separately s; optF := optF s; intr := intr s; kill_on_exit := kill_on_exit s; outfname := outfname s; procs := procs s; qflag_short := x; rflag := rflag s; tflag_short := tflag_short s; tflag_long := tflag_long s; tfmt := tfmt s; tdig := tdig s; Tflag := Tflag s; columns_set := columns_set s; wallclock := wallclock s; xflag := xflag s; xflag_long := xflag_long s; xlat := xlat s; yflag_short := yflag_short s; seccomp := seccomp s; syscall_limit := syscall_limit s; argv0 := argv0 s; show_pid := show_pid s; detach := detach s; quals := quals s; injects := injects s; quiet_updated := quiet_updated s; decode_fd_updated := decode_fd_updated s; pid_pfx := pid_pfx s |}.
Definition set_rflag (s : st) (x : option N) : st := {| acolumn := acolumn s; max_strlen := max_strlen s; cflag := cflag s; daemonized := daemonized s; daemonized_long := daemonized_long s; followfork_short := followfork_short s; followfork := followfork s; separately := separately s; optF := optF s; intr := intr s; kill_on_exit := kill_on_exit s; outfname := outfname s; procs := procs s; qflag_short := qflag_short s; rflag := x; tflag_short := tflag_short s; tflag_long := tflag_long s; tfmt := tfmt s; tdig := tdig s; Tflag := Tflag s; columns_set := columns_set s; wallclock := wallclock s; xflag := xflag s; xflag_long := xflag_long s; xlat := xlat s; yflag_short := yflag_short s; seccomp := seccomp s; syscall_limit := syscall_limit s; argv0 := argv0 s; show_pid := show_pid s; detach := detach s; quals := quals s; injects := injects s; quiet_updated := quiet_updated s; decode_fd_updated := decode_fd_updated s; pid_pfx := pid_pfx s |}.
Definition set_tflag_short (s : st) (x : N) : st := {| acolumn := acolumn s; max_strlen := max_strlen s; cflag := cflag s; daemonized := daemonized s; daemonized_long := daemonized_long s; followfork_short := followfork_short s; followfork := followfork s; separately := separately s; optF := optF s; intr := intr s; kill_on_exit := kill_on_exit s; outfname := outfname s; procs := procs s; qflag_short := qflag_short s; rflag := rflag s; tflag_short := x; tflag_long := tflag_long s; tfmt := tfmt s; tdig := tdig s; Tflag := Tflag s; columns_set := columns_set s; wallclock := wallclock s; xflag := xflag s; xflag_long := xflag_long s; xlat := xlat s; yflag_short := yflag_short s; seccomp := seccomp s; syscall_limit := syscall_limit s; argv0 := argv0 s; show_pid := show_pid s; detach := detach s; quals := quals s; injects := injects s; quiet_updated := quiet_updated s; decode_fd_updated := decode_fd_updated s; pid_pfx := pid_pfx s |}.
Definition set_tflag_long (s : st) (x : bool) : st := {| acolumn := acolumn s; max_strlen := max_strlen s; cflag := cflag s; daemonized := daemonized s; daemonized_long := daemonized_long s; followfork_short := followfork_short s; followfork := followfork s; separately := separately s; optF := optF s; intr := intr s; kill_on_exit := kill_on_exit s; outfname := outfname s; procs := procs s; qflag_short := qflag_short s; rflag := rflag s; tflag_short := tflag_short s; tflag_long := x; tfmt := tfmt s; tdig := tdig s; Tflag := Tflag s; columns_set := columns_set s; wallclock := wallclock s; xflag := xflag s; xflag_long := xflag_long s; xlat := xlat s; yflag_short := yflag_short s; seccomp := seccomp s; syscall_limit := syscall_limit s; argv0 := argv0 s; show_pid := show_pid s; detach := detach s; quals := quals s; injects := injects s; quiet_updated := quiet_updated s; decode_fd_updated := decode_fd_updated s; pid_pfx := pid_pfx s |}.
Definition set_tfmt (s : st) (x : N) : st := {| acolumn := acolumn s; max_strlen := max_strlen s; cflag := cflag s; daemonized := daemonized s; daemonized_long := daemonized_long s; followfork_short := followfork_short s; followfork := followfork s; separately := separately s; optF := optF s; intr := intr s; kill_on_exit := kill_on_exit s; outfname := outfname s; procs := procs s; qflag_short := qflag_short s; rflag := rflag s; tflag_short := tflag_short s; tflag_long := tflag_long s; tfmt := x; tdig := tdig s; Tflag := Tflag s; columns_set := columns_set s; wallclock := wallclock s; xflag := xflag s; xflag_long := xflag_long s; xlat := xlat s; yflag_short := yflag_short s; seccomp := seccomp s; syscall_limit := syscall_limit s; argv0 := argv0 s; show_pid := show_pid s; detach := detach s; quals := quals s; injects := injects s; quiet_updated := quiet_updated s; decode_fd_updated := decode_fd_updated s; pid_pfx := pid_pfx s |}.
Definition set_tdig (s : st) (x : N) : st := {| acolumn := acolumn s; max_strlen := max_strlen s; cflag := cflag s; daemonized := daemonized s; daemonized_long := daemonized_long s; followfork_short := followfork_short s; followfork := followfork s; separately := separately s; optF := optF s; intr := intr s; kill_on_exit := kill_on_exit s; outfname := outfname s; procs := procs s; qflag_short := qflag_short s; rflag := rflag s; tflag_short := tflag_short s; tflag_long := tflag_long s; tfmt := tfmt s; tdig := x; Tflag := Tflag s; columns_set := columns_set s; wallclock := wallclock s; xflag := xflag s; xflag_long := xflag_long s; xlat := xlat s; yflag_short := yflag_short s; seccomp := seccomp s; syscall_limit := syscall_limit s; argv0 := argv0 s; show_pid := show_pid s; detach := detach s; quals := quals s; injects := injects s; quiet_updated := quiet_updated s; decode_fd_updated := decode_fd_updated s; pid_pfx := pid_pfx s |}.
Definition set_Tflag (s : st) (x : option N) : st := {| acolumn := acolumn s; max_strlen := max_strlen s; cflag := cflag s; daemonized := daemonized s; daemonized_long := daemonized_long s; followfork_short := followfork_short s; followfork := followfork s; separately := separately s; optF := optF s; intr := intr s; kill_on_exit := kill_on_exit s; outfname := outfname s; procs := procs s; qflag_short := qflag_short s; rflag := rflag s; tflag_short := tflag_short s; tflag_long := tflag_long s; tfmt := tfmt s; tdig := tdig s; Tflag := x; columns_set := columns_set s; wallclock := wallclock s; xflag := xflag s; xflag_long := xflag_long s; xlat := xlat s; yflag_short := yflag_short s; seccomp := seccomp s; syscall_limit := syscall_limit s; argv0 := argv0 s; show_pid := show_pid s; detach := detach s; quals := quals s; injects := injects s; quiet_updated := quiet_updated s; decode_fd_updated := decode_fd_updated s; pid_pfx := pid_pfx s |}.
Definition set_columns_set (s : st) (x : bool) : st := {| acolumn := acolumn s; max_strlen := max_strlen s; cflag := cflag s; daemonized := daemonized s; daemonized_long := daemonized_long s; followfork_short := followfork_short s; followfork := followfork s; separately := separately s; optF := optF s; intr := intr s; kill_on_exit := kill_on_exit s; outfname := outfname s; procs := procs s; qflag_short := qflag_short s; rflag := rflag s; tflag_short := tflag_short s; tflag_long := tflag_long s; tfmt := tfmt s; tdig := tdig s; Tflag := Tflag s; columns_set := x; wallclock := wallclock s; xflag := xflag s; xflag_long := xflag_long s; xlat := xlat s; yflag_short := yflag_short s; seccomp := seccomp s; syscall_limit := syscall_limit s; argv0 := argv0 s; show_pid := show_pid s; detach := detach s; quals := quals s; injects := injects s; quiet_updated := quiet_updated s; decode_fd_updated := decode_fd_updated s; pid_pfx := pid_pfx s |}.
Definition set_wallclock (s : st) (x : bool) : st := {| acolumn := acolumn s; max_strlen := max_strlen s; cflag := cflag s; daemonized := daemonized s; daemonized_long := daemonized_long s; followfork_short := followfork_short s; followfork := followfork s; separately := separately s; optF := optF s; intr := intr s; kill_on_exit := kill_on_exit s; outfname := outfname s; procs := procs s; qflag_short := qflag_short s; rflag := rflag s; tflag_short := tflag_short s; tflag_long := tflag_long s; tfmt := tfmt s; tdig := tdig s; Tflag := Tflag s; columns_set := columns_set s; wallclock := x; xflag := xflag s; xflag_long := xflag_long s; xlat := xlat s; yflag_short := yflag_short s; seccomp := seccomp s; syscall_limit := syscall_limit s; argv0 := argv0 s; show_pid := show_pid s; detach := detach s; quals := quals s; injects := injects s; quiet_updated := quiet_updated s; decode_fd_updated := decode_fd_updated s; pid_pfx := pid_pfx s |}.
Definition set_xflag (s : st) (x : N) : st := {| acolumn := acolumn s; max_strlen := max_strlen s; cflag := cflag s; daemonized := daemonized s; daemonized_long := daemonized_long s; followfork_short := followfork_short s; followfork := followfork s; separately := separately s; optF := optF s; intr := intr s; kill_on_exit := kill_on_exit s; outfname := outfname s; procs := procs s; qflag_short := qflag_short s; rflag := rflag s; tflag_short := tflag_short s; tflag_long := tflag_long s; tfmt := tfmt s; tdig := tdig s; Tflag := Tflag s; columns_set := columns_set s; wallclock := wallclock s; xflag := x; xflag_long := xflag_long s; xlat := xlat s; yflag_short := yflag_short s; seccomp := seccomp s; syscall_limit := syscall_limit s; argv0 := argv0 s; show_pid := show_pid s; detach := detach s; quals := quals s; injects := injects s; quiet_updated := quiet_updated s; decode_fd_updated := decode_fd_updated s; pid_pfx := pid_pfx s |}.
Definition set_xflag_long (s : st) (x : option N) : st := {| acolumn := acolumn s; max_strlen := max_strlen s; cflag := cflag s; daemonized := daemonized s; daemonized_long := daemonized_long s; followfork_short := followfork_short s; followfork := followfork s; separately := separately s; optF := optF s; intr := intr s; kill_on_exit := kill_on_exit s; outfname := outfname s; procs := procs s; qflag_short := qflag_short s; rflag := rflag s; tflag_short := tflag_short s; tflag_long := tflag_long s; tfmt := tfmt s; tdig := tdig s; Tflag := Tflag s; columns_set := columns_set s; wallclock := wallclock s; xflag := xflag s; xflag_long := x; xlat := xlat s; yflag_short := yflag_short s; seccomp := seccomp s; syscall_limit := syscall_limit s; argv0 := argv0 s; show_pid := show_pid s; detach := detach s; quals := quals s; injects := injects s; quiet_updated := quiet_updated s; decode_fd_updated := decode_fd_updated s; pid_pfx := pid_pfx s |}.
Definition set_xlat (s : st) (x : N) : st := {| acolumn := acolumn s; max_strlen := max_strlen s; cflag := cflag s; daemonized := daemonized s; daemonized_long := daemonized_long s; followfork_short := followfork_short s; followfork := followfork s; separately := separately s; optF := optF s; intr := intr s; kill_on_exit := kill_on_exit s; outfname := outfname s; procs := procs s; qflag_short := qflag_short s; rflag := rflag s; tflag_short := tflag_short s; tflag_long := tflag_long s; tfmt := tfmt s; tdig := tdig s; Tflag := Tflag s; columns_set := columns_set s; wallclock := wallclock s; xflag := xflag s; xflag_long := xflag_long s; xlat := x; yflag_short := yflag_short s; seccomp := seccomp s; syscall_limit := syscall_limit s; argv0 := argv0 s; show_pid := show_pid s; detach := detach s; quals := quals s; injects := injects s; quiet_updated := quiet_updated s; decode_fd_updated := decode_fd_updated s; pid_pfx := pid_pfx s |}.
Definition set_yflag_short (s : st) (x : N) : st := {| acolumn := acolumn s; max_strlen := max_strlen s; cflag := cflag s; daemonized := daemonized s; daemonized_long := daemonized_long s; followfork_short := followfork_short s; followfork := followfork s; separately := separately s; optF := optF s; intr := intr s; kill_on_exit := kill_on_exit s; outfname := outfname s; procs := procs s; qflag_short := qflag_short s; rflag := rflag s; tflag_short := tflag_short s; tflag_long := tflag_long s; tfmt := tfmt s; tdig := tdig s; Tflag := Tflag s; columns_set := columns_set s; wallclock := wallclock s; xflag := xflag s; xflag_long := xflag_long s; xlat := xlat s; yflag_short := x; seccomp := seccomp s; syscall_limit := syscall_limit s; argv0 := argv0 s; show_pid := show_pid s; detach := detach s; quals := quals s; injects := injects s; quiet_updated := quiet_updated s; decode_fd_updated := decode_fd_updated s; pid_pfx := pid_pfx s |}.
Definition set_seccomp (s : st) (x : bool) : st := {| acolumn := acolumn s; max_strlen := max_strlen s; cflag := cflag s; daemonized := daemonized s; daemonized_long := daemonized_long s; followfork_short := followfork_short s; followfork := followfork s; separately := separately s; optF := optF s; intr := intr s; kill_on_exit := kill_on_exit s; outfname := outfname s; procs := procs s; qflag_short := qflag_short s; rflag := rflag s; tflag_short := tflag_short s; tflag_long := tflag_long s; tfmt := tfmt s; tdig := tdig s; Tflag := Tflag s; columns_set := columns_set s; wallclock := wallclock s; xflag := xflag s; xflag_long := xflag_long s; xlat := xlat s; yflag_short := yflag_short s; seccomp := x; syscall_limit := syscall_limit s; argv0 := argv0 s; show_pid := show_pid s; detach := detach s; quals := quals s; injects := injects s; quiet_updated := quiet_updated s; decode_fd_updated := decode_fd_updated s; pid_pfx := pid_pfx s |}.
Definition set_syscall_limit (s : st) (x : option N) : st := {| acolumn := acolumn s; max_strlen := max_strlen s; cflag := cflag s; daemonized := daemonized s; daemonized_long := daemonized_long s; followfork_short := followfork_short s; followfork := followfork s; separately := separately s; optF := optF s; intr := intr s; kill_on_exit := kill_on_exit s; outfname := outfname s; procs := procs s; qflag_short := qflag_short s; rflag := rflag s; tflag_short := tflag_short s; tflag_long := tflag_long s; tfmt := tfmt s; tdig := tdig s; Tflag := Tflag s; columns_set := columns_set s; wallclock := wallclock s; xflag := xflag s; xflag_long := xflag_long s; xlat := xlat s; yflag_short := yflag_short s; seccomp := seccomp s; syscall_limit := x; argv0 := argv0 s; show_pid := show_pid s; detach := detach s; quals := quals s; injects := injects s; quiet_updated := quiet_updated s; decode_fd_updated := decode_fd_updated s; pid_pfx := pid_pfx s |}.
Definition set_argv0 (s : st) (x : bool) : st := {| acolumn := acolumn s; max_strlen := max_strlen s; cflag := cflag s; daemonized := daemonized s; daemonized_long := daemonized_long s; followfork_short := followfork_short s; followfork := followfork s; separately := separately s; optF := optF s; intr := intr s; kill_on_exit := kill_on_exit s; outfname := outfname s; procs := procs s; qflag_short := qflag_short s; rflag := rflag s; tflag_short := tflag_short s; tflag_long := tflag_long s; tfmt := tfmt s; tdig := tdig s; Tflag := Tflag s; columns_set := columns_set s; wallclock := wallclock s; xflag := xflag s; xflag_long := xflag_long s; xlat := xlat s; yflag_short := yflag_short s; seccomp := seccomp s; syscall_limit := syscall_limit s; argv0 := x; show_pid := show_pid s; detach := detach s; quals := quals s; injects := injects s; quiet_updated := quiet_updated s; decode_fd_updated := decode_fd_updated s; pid_pfx := pid_pfx s |}.
Definition set_show_pid (s : st) (x : bool) : st := {| acolumn := acolumn s; max_strlen := max_strlen s; cflag := cflag s; daemonized := daemonized s; daemonized_long := daemonized_long s; followfork_short := followfork_short s; followfork := followfork s; separately := separately s; optF := optF s; intr := intr s; kill_on_exit := kill_on_exit s; outfname := outfname s; procs := procs s; qflag_short := qflag_short s; rflag := rflag s; tflag_short := tflag_short s; tflag_long := tflag_long s; tfmt := tfmt s; tdig := tdig s; Tflag := Tflag s; columns_set := columns_set s; wallclock := wallclock s; xflag := xflag s; xflag_long := xflag_long s; xlat := xlat s; yflag_short := yflag_short s; seccomp := seccomp s; syscall_limit := syscall_limit s; argv0 := argv0 s; show_pid := x; detach := detach s; quals := quals s; injects := injects s; quiet_updated := quiet_updated s; decode_fd_updated := decode_fd_updated s; pid_pfx := pid_pfx s |}.
Definition set_detach (s : st) (x : bool) : st := {| acolumn := acolumn s; max_strlen := max_strlen s; cflag := cflag s; daemonized := daemonized s; daemonized_long := daemonized_long s; followfork_short := followfork_short s; followfork := followfork s; separately := separately s; optF := optF s; intr := intr s; kill_on_exit := kill_on_exit s; outfname := outfname s; procs := procs s; qflag_short := qflag_short s; rflag := rflag s; tflag_short := tflag_short s; tflag_long := tflag_long s; tfmt := tfmt s; tdig := tdig s; Tflag := Tflag s; columns_set := columns_set s; wallclock := wallclock s; xflag := xflag s; xflag_long := xflag_long s; xlat := xlat s; yflag_short := yflag_short s; seccomp := seccomp s; syscall_limit := syscall_limit s; argv0 := argv0 s; show_pid := show_pid s; detach := x; quals := quals s; injects := injects s; quiet_updated := quiet_updated s; decode_fd_updated := decode_fd_updated s; pid_pfx := pid_pfx s |}.
Definition set_quals (s : st) (x : kind -> option (list N)) : st := {| acolumn := acolumn s; max_strlen := max_strlen s; cflag := cflag s; daemonized := daemonized s; daemonized_long := daemonized_long s; followfork_short := followfork_short s; followfork := followfork s; separately := separately s; optF := optF s; intr := intr s; kill_on_exit := kill_on_exit s; outfname := outfname s; procs := procs s; qflag_short := qflag_short s; rflag := rflag s; tflag_short := tflag_short s; tflag_long := tflag_long s; tfmt := tfmt s; tdig := tdig s; Tflag := Tflag s; columns_set := columns_set s; wallclock := wallclock s; xflag := xflag s; xflag_long := xflag_long s; xlat := xlat s; yflag_short := yflag_short s; seccomp := seccomp s; syscall_limit := syscall_limit s; argv0 := argv0 s; show_pid := show_pid s; detach := detach s; quals := x; injects := injects s; quiet_updated := quiet_updated s; decode_fd_updated := decode_fd_updated s; pid_pfx := pid_pfx s |}.
Definition set_injects (s : st) (x : list (bool * list N)) : st := {| acolumn := acolumn s; max_strlen := max_strlen s; cflag := cflag s; daemonized := daemonized s; daemonized_long := daemonized_long s; followfork_short := followfork_short s; followfork := followfork s; separately := separately s; optF := optF s; intr := intr s; kill_on_exit := kill_on_exit s; outfname := outfname s; procs := procs s; qflag_short := qflag_short s; rflag := rflag s; tflag_short := tflag_short s; tflag_long := tflag_long s; tfmt := tfmt s; tdig := tdig s; Tflag := Tflag s; columns_set := columns_set s; wallclock := wallclock s; xflag := xflag s; xflag_long := xflag_long s; xlat := xlat s; yflag_short := yflag_short s; seccomp := seccomp s; syscall_limit := syscall_limit s; argv0 := argv0 s; show_pid := show_pid s; detach := detach s; quals := quals s; injects := x; quiet_updated := quiet_updated s; decode_fd_updated := decode_fd_updated s; pid_pfx := pid_pfx s |}.
Definition set_quiet_updated (s : st) (x : bool) : st := {| acolumn := acolumn s; max_strlen := max_strlen s; cflag := cflag s; daemonized := daemonized s; daemonized_long := daemonized_long s; followfork_short := followfork_short s; followfork := followfork s; separately := separately s; optF := optF s; intr := intr s; kill_on_exit := kill_on_exit s; outfname := outfname s; procs := procs s; qflag_short := qflag_short s; rflag := rflag s; tflag_short := tflag_short s; tflag_long := tflag_long s; tfmt := tfmt s; tdig := tdig s; Tflag := Tflag s; columns_set := columns_set s; wallclock := wallclock s; xflag := xflag s; xflag_long := xflag_long s; xlat := xlat s; yflag_short := yflag_short s; seccomp := seccomp s; syscall_limit := syscall_limit s; argv0 := argv0 s; show_pid := show_pid s; detach := detach s; quals := quals s; injects := injects s; quiet_updated := x; decode_fd_updated := decode_fd_updated s; pid_pfx := pid_pfx s |}.
Definition set_decode_fd_updated (s : st) (x : bool) : st := {| acolumn := acolumn s; max_strlen := max_strlen s; cflag := cflag s; daemonized := daemonized s; daemonized_long := daemonized_long s; followfork_short := followfork_short s; followfork := followfork s; separately := separately s; optF := optF s; intr := intr s; kill_on_exit := kill_on_exit s; outfname := outfname s; procs := procs s; qflag_short := qflag_short s; rflag := rflag s; tflag_short := tflag_short s; tflag_long := tflag_long s; tfmt := tfmt s; tdig := tdig s; Tflag := Tflag s; columns_set := columns_set s; wallclock := wallclock s; xflag := xflag s; xflag_long := xflag_long s; xlat := xlat s; yflag_short := yflag_short s; seccomp := seccomp s; syscall_limit := syscall_limit s; argv0 := argv0 s; show_pid := show_pid s; detach := detach s; quals := quals s; injects := injects s; quiet_updated := quiet_updated s; decode_fd_updated := x; pid_pfx := pid_pfx s |}.
Definition set_pid_pfx (s : st) (x : bool) : st := {| acolumn := acolumn s; max_strlen := max_strlen s; cflag := cflag s; daemonized := daemonized s; daemonized_long := daemonized_long s; followfork_short := followfork_short s; followfork := followfork s; separately := separately s; optF := optF s; intr := intr s; kill_on_exit := kill_on_exit s; outfname := outfname s; procs := procs s; qflag_short := qflag_short s; rflag := rflag s; tflag_short := tflag_short s; tflag_long := tflag_long s; tfmt := tfmt s; tdig := tdig s; Tflag := Tflag s; columns_set := columns_set s; wallclock := wallclock s; xflag := xflag s; xflag_long := xflag_long s; xlat := xlat s; yflag_short := yflag_short s; seccomp := seccomp s; syscall_limit := syscall_limit s; argv0 := argv0 s; show_pid := show_pid s; detach := detach s; quals := quals s; injects := injects s; quiet_updated := quiet_updated s; decode_fd_updated := decode_fd_updated s; pid_pfx := x |}.
(** the initial values: strace.c:69-130, 2246-2279, 2312-2330 *)
Definition st0 : st := {| acolumn := 40; max_strlen := 32; cflag := 0; daemonized := 0; daemonized_long := 0; followfork_short := 0; followfork := false; separately := false; optF := false; intr := 0; kill_on_exit := false; outfname := None; procs := []; qflag_short := 0; rflag := None; tflag_short := 0; tflag_long := false; tfmt := 0; tdig := 0; Tflag := None; columns_set := false; wallclock := false; xflag := 0; xflag_long := None; xlat := 2; yflag_short := 0; seccomp := false; syscall_limit := None; argv0 := false; show_pid := false; detach := false; quals := dflt; injects := []; quiet_updated := false; decode_fd_updated := false; pid_pfx := false |}.
(** the defaults of options without argument, strace.c:2252-2261 *)
Definition qflag_qual : list N := bs "attach,personality".
Definition qqflag_qual : list N := bs "exit,attach,personality".
(** find_arg_val, src/util.c:49-59 *)
Definition find_arg_val (t : list (N * list N)) (dflt : N) (s : option (list N)) : option N :=
  match s with None => Some dflt | Some s => find_xlat_val_ex t s false end.
(** str2timescale_ex, src/util.c:61-83, as str2timescale_optarg: the digits *)
Definition timescale (s : option (list N)) : option N :=
  match s with
  | None => Some 6
  | Some [] => None
  | Some s => find_xlat_val_ex [(0, bs "s"); (3, bs "ms"); (6, bs "us"); (9, bs "ns")] s false
  end.
(** parse_interruptible_arg, strace.c:1946-1961 *)
Definition parse_interruptible_arg (s : list N) : option N :=
  match find_xlat_val_ex [(1, bs "anywhere"); (1, bs "always"); (2, bs "waiting"); (3, bs "never"); (4, bs "never_tstp")] s false with
  | Some v => Some v
  | None => match string_to_uint_upto s 4 with Some 0 => None | r => r end
  end.
(** strncasecmp of a prefix *)
Definition casestrip (p s : list N) : option (list N) := if strcaseeq (firstn (length p) s) p then Some (skipn (length p) s) else None.
(** the loop of parse_ts_arg, strace.c:1985-2017 *)
Definition ts_format (t : list N) : option N := find_xlat_val_ex [(0, bs "none"); (1, bs "time"); (2, bs "unix")] t false.
Definition ts_scale (t : list N) : option N := timescale (Some t).
Inductive token := Format (n : N) | Precision (n : N) | Bad.
Definition ts_token (t : list N) : token :=
  match casestrip (bs "format:") t with
  | Some t => match ts_format t with Some f => Format f | None => Bad end
  | None =>
  match casestrip (bs "precision:") t with
  | Some t => match ts_scale t with Some d => Precision d | None => Bad end
  | None => match ts_format t with Some f => Format f | None => match ts_scale t with Some d => Precision d | None => Bad end end
  end end.
Fixpoint ts_loop (l : list (list N)) (f p : option N) : option (option N * option N) :=
  match l with
  | [] => Some (f, p)
  | t :: l => match ts_token t with Format n => ts_loop l (Some n) p | Precision n => ts_loop l f (Some n) | Bad => None end
  end.
(** parse_ts_arg, strace.c:1963-2044 *)
Definition parse_ts_arg (x : st) (s : list N) : option st :=
  match ts_loop (strtok_all 44 s) None None with
  | None => None
  | Some (f, p) =>
      let x := set_tfmt x (match f with Some f => f | None => if tfmt x =? 0 then 1 else tfmt x end) in
      Some (match p with Some d => set_tdig x d | None => x end)
  end.
(** process_opt_p_list, strace.c:1352-1383 *)
Definition is_sep (c : N) : bool := (c =? 10) || (c =? 9) || (c =? 32) || (c =? 44).
Fixpoint pid_tokens (s cur : list N) : list (list N) :=
  match s with
  | [] => match cur with [] => [] | _ => [rev cur] end
  | c :: s => if is_sep c then match cur with [] => pid_tokens s [] | _ => rev cur :: pid_tokens s [] end else pid_tokens s (c :: cur)
  end.
Fixpoint pids (self : N) (l : list (list N)) : option (list N) :=
  match l with
  | [] => Some []
  | t :: l => olet p := string_to_uint t in if (p =? 0) || (p =? self) then None else olet r := pids self l in Some (p :: r)
  end.
(** the functions qualify_*, filter_qualify.c:431-672, with what the sets have in common *)
Definition do_qual (e : env) (x : st) (k : kind) (s : list N) : res st :=
  if negb (valid e k s) then Die else
  Ok match k with
     | Fault => set_injects x (injects x ++ [(true, s)])
     | Inject => set_injects x (injects x ++ [(false, s)])
     | _ =>
         let x := set_quals x (fun k' => if kind_eq_dec k' k then Some s else quals x k') in
         match k with Quiet => set_quiet_updated x true | DecodeFd => set_decode_fd_updated x true | _ => x end
     end.
Definition opt_res {A} (o : option A) : res A := match o with Some a => Ok a | None => Die end.
(** the switch, strace.c:2447-2770 *)
Definition option1 (e : env) (x : st) (o : opt) : res st :=
  match o with
  | o_a s => rlet n := opt_res (string_to_uint s) in Ok (set_acolumn x n)
  | o_b s => if beqs s (bs "execve") then Ok (set_detach x true) else Die
  | o_c => if cflag x =? 2 then Die else Ok (set_cflag x 1)
  | o_C => if cflag x =? 1 then Die else Ok (set_cflag x 2)
  | o_D => Ok (set_daemonized x (daemonized x + 1))
  | o_daemonize s => rlet n := opt_res (find_arg_val [(1, bs "grandchild"); (2, bs "pgroup"); (2, bs "pgrp"); (3, bs "session")] 1 s) in Ok (set_daemonized_long x n)
  | o_e s => let (k, v) := qualify s in do_qual e x k v
  | o_f => Ok (set_followfork_short x (followfork_short x + 1))
  | o_follow_forks => Ok (set_followfork x true)
  | o_output_separately => Ok (set_separately x true)
  | o_F => Ok (set_optF x true)
  | o_I s => rlet n := opt_res (parse_interruptible_arg s) in Ok (set_intr x n)
  | o_kill_on_exit => Ok (set_kill_on_exit x true)
  | o_o s => Ok (set_outfname x (Some s))
  | o_p s => rlet l := opt_res (pids (self e) (pid_tokens s [])) in Ok (set_procs x (procs x ++ l))
  | o_q => Ok (set_qflag_short x (qflag_short x + 1))
  | o_r s => rlet d := opt_res (timescale s) in Ok (set_rflag x (Some d))
  | o_s s => rlet n := opt_res (string_to_uint s) in if 1073741823 <? n then Die else Ok (set_max_strlen x n)
  | o_t => Ok (set_tflag_short x (tflag_short x + 1))
  | o_timestamps s => opt_res (parse_ts_arg (set_tflag_long x true) (match s with Some s => s | None => bs "format:time" end))
  | o_T s => rlet d := opt_res (timescale s) in Ok (set_Tflag x (Some d))
  | o_U => Ok (set_columns_set x true)
  | o_v => do_qual e x Abbrev (bs "none")
  | o_w => Ok (set_wallclock x true)
  | o_x => Ok (set_xflag x (N.min (xflag x + 1) 2))
  | o_strings_in_hex s => rlet n := opt_res (find_arg_val [(0, bs "none"); (3, bs "non-ascii-chars"); (1, bs "non-ascii"); (2, bs "all")] 2 s) in Ok (set_xflag_long x (Some n))
  | o_X s => if beqs s (bs "raw") then Ok (set_xlat x 1) else if beqs s (bs "abbrev") then Ok (set_xlat x 2) else if beqs s (bs "verbose") then Ok (set_xlat x 3) else Die
  | o_y => Ok (set_yflag_short x (yflag_short x + 1))
  | o_Y => do_qual e x DecodePid (bs "comm")
  | o_pidns => do_qual e x DecodePid (bs "pidns")
  | o_z => Ok (set_quals x (fun k => if kind_eq_dec k Status then Some (bs "successful") else quals x k))
  | o_Z => Ok (set_quals x (fun k => if kind_eq_dec k Status then Some (bs "failed") else quals x k))
  | o_seccomp_bpf => Ok (set_seccomp x true)
  | o_syscall_limit s => rlet n := opt_res (string_to_uint_upto s (2^63 - 1)) in if n =? 0 then Die else Ok (set_syscall_limit x (Some n))
  | o_argv0 => Ok (set_argv0 x true)
  | o_always_show_pid => Ok (set_show_pid x true)
  | o_qual k s =>
      match s, k with
      | Some s, _ => do_qual e x k s
      | None, Secontext => do_qual e x k (bs "!full,mismatch")
      | None, Namespace => do_qual e x k (bs "new")
      | None, Quiet => do_qual e x k qflag_qual
      | None, DecodeFd => do_qual e x k (bs "path")
      | None, _ => Die
      end
  end.
Fixpoint options (e : env) (x : st) (l : list opt) : res st := match l with [] => Ok x | o :: l => rlet x := option1 e x o in options e x l end.
(** src/strace.c:2780-2789 *)
Definition ck_args (e : env) (x : st) : res st :=
  if negb (program e) && match procs x with [] => true | _ => false end then Die
  else if negb (program e) && argv0 x then Die else Ok x.
(** strace.c:2789-2808 *)
Definition ck_daemon (e : env) (x : st) : res st :=
  rlet x := (if negb (daemonized_long x =? 0) then if negb (daemonized x =? 0) then Die else Ok (set_daemonized x (daemonized_long x)) else Ok x) in
  if negb (program e) && negb (daemonized x =? 0) then Die else if 3 <? daemonized x then Die else Ok x.
(** strace.c:2810-2818 *)
Definition ck_t (x : st) : res st :=
  if tflag_short x =? 0 then Ok x
  else if tflag_long x then Die
  else opt_res (parse_ts_arg x (if tflag_short x =? 1 then bs "format:time" else if tflag_short x =? 2 then bs "precision:us,format:time" else bs "format:unix,precision:us")).
(** strace.c:2820-2828 *)
Definition ck_x (x : st) : res st :=
  match xflag_long x with None => Ok x | Some n => if negb (xflag x =? 0) then Die else Ok (set_xflag x n) end.
(** strace.c:2829-2836 *)
Definition ck_y (e : env) (x : st) : res st :=
  if yflag_short x =? 0 then Ok x else if decode_fd_updated x then Die else do_qual e x DecodeFd (if yflag_short x =? 1 then bs "path" else bs "all").
(** strace.c:2851-2862 *)
Definition ck_f (x : st) : res st :=
  if followfork_short x =? 0 then Ok x
  else if followfork x then Die
  else if (2 <=? followfork_short x) && separately x then Die
  else Ok (set_separately (set_followfork x true) (2 <=? followfork_short x)).
(** strace.c:2864-2887; later check_seccomp_filter, 3026 *)
Definition ck_seccomp (e : env) (x : st) : st :=
  let x := if seccomp x && negb (followfork x) then set_seccomp x false else x in
  let x := if seccomp x && detach x then set_seccomp x false else x in
  let x := if seccomp x && match syscall_limit x with Some _ => true | None => false end then set_seccomp x false else x in
  let x := if seccomp x && negb (match procs x with [] => true | _ => false end) && negb (program e) then set_seccomp x false else x in
  if seccomp x && negb (seccomp_ok e) then set_seccomp x false else x.
(** strace.c:2889-2897 *)
Definition ck_F (x : st) : st := if optF x then set_followfork x true else x.
(** strace.c:2899-2913 *)
Definition ck_c (x : st) : res st :=
  if separately x && negb (cflag x =? 0) then Die
  else if wallclock x && (cflag x =? 0) then Die
  else if columns_set x && (cflag x =? 0) then Die else Ok x.
(** strace.c:3033-3041 *)
Definition ck_kill (e : env) (x : st) : res st :=
  if kill_on_exit x then if negb (match procs x with [] => true | _ => false end) then Die else if negb (exitkill e) then Die else Ok x else Ok x.
(** strace.c:3061-3083, without the length of the name *)
Definition ck_out (x : st) : res st :=
  match outfname x with
  | Some (c :: _) => if ((c =? 124) || (c =? 33)) && separately x then Die else Ok x
  | Some [] => Ok x
  | None => Ok (set_separately x false)
  end.
(** strace.c:3095-3116 *)
Definition ck_q (e : env) (x : st) : res st :=
  let x := if negb (daemonized x =? 0) && (intr x =? 0) then set_intr x 4 else x in
  let x := match outfname x with
           | Some _ => if program e
                       then let x := if intr x =? 0 then set_intr x 3 else x in
                            if (qflag_short x =? 0) && negb (quiet_updated x) then set_qflag_short x 1 else x
                       else x
           | None => x
           end in
  let x := if intr x =? 0 then set_intr x 2 else x in
  if qflag_short x =? 0 then Ok x
  else if quiet_updated x then Die
  else do_qual e x Quiet (if qflag_short x =? 1 then qflag_qual else if qflag_short x =? 2 then qqflag_qual else bs "all").
(** strace.c:3169-3174; nprocs includes the program that has been started *)
Definition ck_pid (e : env) (x : st) : st :=
  set_pid_pfx x ((match outfname x with Some _ => true | None => false end && negb (separately x) && (followfork x || (1 <? N.of_nat (length (procs x)) + (if program e then 1 else 0)))) || show_pid x).
Definition init (e : env) (l : list opt) : res st :=
  rlet x := options e st0 l in
  rlet x := ck_args e x in rlet x := ck_daemon e x in rlet x := ck_t x in rlet x := ck_x x in rlet x := ck_y e x in rlet x := ck_f x in
  let x := ck_F (ck_seccomp e x) in
  rlet x := ck_c x in rlet x := ck_kill e x in rlet x := ck_out x in rlet x := ck_q e x in
  Ok (ck_pid e x).
