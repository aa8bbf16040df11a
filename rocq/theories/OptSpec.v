(** What the options mean: for every setting, which option decides it; and which combinations are refused. *)
From Verif Require Import Base StrtouSpec QualModel QualSpec OptModel.
Local Open Scope N_scope.

(** ** Several options *)
(** of those that state a value, the last one decides; [d] if none does *)
Definition latest {A V : Type} (R : A -> V -> Prop) (l : list A) (d v : V) : Prop :=
  (exists l1 a l2, l = l1 ++ a :: l2 /\ R a v /\ forall b w, In b l2 -> ~ R b w) \/ (v = d /\ forall b w, In b l -> ~ R b w).
Definition has (p : opt -> bool) (l : list opt) : bool := existsb p l.
Definition times (p : opt -> bool) (l : list opt) : N := N.of_nat (length (filter p l)).
(** all that the options state, in their order *)
Definition collected {A : Type} (R : opt -> list A -> Prop) (l : list opt) (r : list A) : Prop := exists rs, Forall2 R l rs /\ r = concat rs.

(** ** Arguments *)
Definition number (max : N) (s : list N) (v : N) : Prop := numeral s v [] /\ v <= max.
Definition int_max : N := 2147483647.
(** one of the words, in lower or upper case *)
Definition same (a b : list N) : Prop := map tolower a = map tolower b.
Definition word (t : list (N * list N)) (s : list N) (v : N) : Prop := exists n, In (v, n) t /\ same s n.
Definition units : list (N * list N) := [(0, bs "s"); (3, bs "ms"); (6, bs "us"); (9, bs "ns")].
(** digits after the second *)
Definition precision (s : option (list N)) (d : N) : Prop := match s with None => d = 6 | Some s => word units s d end.
Definition interruptible (s : list N) (v : N) : Prop :=
  word [(1, bs "anywhere"); (1, bs "always"); (2, bs "waiting"); (3, bs "never"); (4, bs "never_tstp")] s v \/ (number 4 s v /\ v <> 0).
Definition daemon_kind (s : option (list N)) (v : N) : Prop :=
  match s with None => v = 1 | Some s => word [(1, bs "grandchild"); (2, bs "pgroup"); (2, bs "pgrp"); (3, bs "session")] s v end.
Definition hex_kind (s : option (list N)) (v : N) : Prop :=
  match s with None => v = 2 | Some s => word [(0, bs "none"); (1, bs "non-ascii"); (2, bs "all"); (3, bs "non-ascii-chars")] s v end.
Definition xlat_kind (s : list N) (v : N) : Prop := In (v, s) [(1, bs "raw"); (2, bs "abbrev"); (3, bs "verbose")].
(** processes: numbers between blanks, newlines and commas *)
Definition between (s : list N) : list (list N) := comma_tokens (map (fun c => if (c =? 10) || (c =? 9) || (c =? 32) then 44 else c) s).
Definition process (self : N) (t : list N) (p : N) : Prop := number int_max t p /\ p <> 0 /\ p <> self.
(** time stamps: words separated by commas *)
Definition formats : list (N * list N) := [(0, bs "none"); (1, bs "time"); (2, bs "unix")].
Definition format_word (t : list N) (v : option N) : Prop := exists f n, In (f, n) formats /\ (same t n \/ same t (bs "format:" ++ n)) /\ v = Some f.
Definition precision_word (t : list N) (v : option N) : Prop := exists d n, In (d, n) units /\ (same t n \/ same t (bs "precision:" ++ n)) /\ v = Some d.
Definition ts_words (s : option (list N)) : list (list N) := comma_tokens (match s with Some s => s | None => bs "format:time" end).
(** -e: NAME=TEXT, anything else is a trace expression *)
Definition names (k : kind) : list (list N) :=
  match k with
  | Trace => [bs "trace"; bs "t"] | TraceFd => [bs "trace-fd"; bs "trace-fds"; bs "fd"; bs "fds"] | Abbrev => [bs "abbrev"; bs "a"] | Verbose => [bs "verbose"; bs "v"]
  | Raw => [bs "raw"; bs "x"] | Signals => [bs "signal"; bs "signals"; bs "s"] | Status => [bs "status"] | Quiet => [bs "quiet"; bs "silent"; bs "silence"; bs "q"]
  | Read => [bs "read"; bs "reads"; bs "r"] | Write => [bs "write"; bs "writes"; bs "w"] | Fault => [bs "fault"] | Inject => [bs "inject"] | Kvm => [bs "kvm"]
  | DecodeFd => [bs "decode-fd"; bs "decode-fds"] | DecodePid => [bs "decode-pid"; bs "decode-pids"] | Secontext => [bs "secontext"] | Namespace => [bs "namespace"]
  end.
Definition means (s : list N) (k : kind) (v : list N) : Prop :=
  (exists n, In n (names k) /\ s = n ++ bs "=" ++ v) \/ (k = Trace /\ v = s /\ forall k' n w, In n (names k') -> s <> n ++ bs "=" ++ w).

(** ** What an option states *)
Definition r_a (o : opt) (v : N) : Prop := match o with o_a s => number int_max s v | _ => False end.
Definition r_s (o : opt) (v : N) : Prop := match o with o_s s => number 1073741823 s v | _ => False end.
Definition r_I (o : opt) (v : N) : Prop := match o with o_I s => interruptible s v | _ => False end.
Definition r_o (o : opt) (v : option (list N)) : Prop := match o with o_o s => v = Some s | _ => False end.
Definition r_r (o : opt) (v : option N) : Prop := match o with o_r s => exists d, precision s d /\ v = Some d | _ => False end.
Definition r_T (o : opt) (v : option N) : Prop := match o with o_T s => exists d, precision s d /\ v = Some d | _ => False end.
Definition r_X (o : opt) (v : N) : Prop := match o with o_X s => xlat_kind s v | _ => False end.
Definition r_limit (o : opt) (v : option N) : Prop := match o with o_syscall_limit s => exists n, number (2^63 - 1) s n /\ n <> 0 /\ v = Some n | _ => False end.
Definition r_daemonize (o : opt) (v : N) : Prop := match o with o_daemonize s => daemon_kind s v | _ => False end.
Definition r_hex (o : opt) (v : option N) : Prop := match o with o_strings_in_hex s => exists n, hex_kind s n /\ v = Some n | _ => False end.
Definition r_fmt (o : opt) (v : N) : Prop := match o with o_timestamps s => latest format_word (ts_words s) None (Some v) | _ => False end.
(** a format is left out *)
Definition r_unstated (o : opt) (v : bool) : Prop :=
  match o with o_timestamps s => exists f, latest format_word (ts_words s) None f /\ v = (match f with None => true | Some _ => false end) | _ => False end.
Definition r_dig (o : opt) (v : N) : Prop := match o with o_timestamps s => latest precision_word (ts_words s) None (Some v) | _ => False end.
Definition r_procs (e : env) (o : opt) (v : list N) : Prop := match o with o_p s => Forall2 (process (self e)) (between s) v | _ => v = [] end.
(** the setting an option changes and the text *)
Definition sets (o : opt) (k : kind) (v : list N) : Prop :=
  match o with
  | o_e s => means s k v
  | o_v => k = Abbrev /\ v = bs "none"
  | o_Y => k = DecodePid /\ v = bs "comm"
  | o_pidns => k = DecodePid /\ v = bs "pidns"
  | o_z => k = Status /\ v = bs "successful"
  | o_Z => k = Status /\ v = bs "failed"
  | o_qual k' (Some s) => k = k' /\ v = s
  | o_qual k' None =>
      k = k' /\ (k' = Secontext /\ v = bs "!full,mismatch" \/ k' = Namespace /\ v = bs "new" \/ k' = Quiet /\ v = bs "attach,personality" \/ k' = DecodeFd /\ v = bs "path")
  | _ => False
  end.
Definition r_set (k : kind) (o : opt) (v : option (list N)) : Prop := exists s, sets o k s /\ v = Some s.
Definition changes (k : kind) (l : list opt) : Prop := exists o v, In o l /\ sets o k v.
Definition r_inject (o : opt) (v : list (bool * list N)) : Prop :=
  (exists s, sets o Fault s /\ v = [(true, s)]) \/ (exists s, sets o Inject s /\ v = [(false, s)]) \/ ((forall s, ~ sets o Fault s /\ ~ sets o Inject s) /\ v = []).
(** without any option *)
Definition initial (k : kind) : option (list N) :=
  match k with Trace | Abbrev | Verbose | Status | Signals => Some (bs "all") | Quiet | DecodeFd | Secontext => Some (bs "none") | _ => None end.

(** ** Well formed arguments *)
Definition wf (e : env) (o : opt) : Prop :=
  match o with
  | o_a s => exists v, number int_max s v
  | o_b s => s = bs "execve"
  | o_daemonize s => exists v, daemon_kind s v
  | o_I s => exists v, interruptible s v
  | o_p s => forall t, In t (between s) -> exists p, process (self e) t p
  | o_r s | o_T s => exists d, precision s d
  | o_s s => exists v, number 1073741823 s v
  | o_timestamps s => forall t, In t (ts_words s) -> exists v, format_word t v \/ precision_word t v
  | o_strings_in_hex s => exists v, hex_kind s v
  | o_X s => exists v, xlat_kind s v
  | o_syscall_limit s => exists v, number (2^63 - 1) s v /\ v <> 0
  | o_e _ | o_v | o_Y | o_pidns | o_qual _ _ => exists k v, sets o k v /\ valid e k v = true
  | _ => True
  end.
(** the texts strace itself uses are valid *)
Definition sane (e : env) : Prop :=
  valid e Quiet (bs "attach,personality") = true /\ valid e Quiet (bs "exit,attach,personality") = true /\ valid e Quiet (bs "all") = true /\
  valid e DecodeFd (bs "path") = true /\ valid e DecodeFd (bs "all") = true.

(** ** Options without argument *)
Definition is_c (o : opt) : bool := match o with o_c => true | _ => false end.
Definition is_C (o : opt) : bool := match o with o_C => true | _ => false end.
Definition is_b (o : opt) : bool := match o with o_b _ => true | _ => false end.
Definition is_D (o : opt) : bool := match o with o_D => true | _ => false end.
Definition is_daemonize (o : opt) : bool := match o with o_daemonize _ => true | _ => false end.
Definition is_f (o : opt) : bool := match o with o_f => true | _ => false end.
Definition is_follow_forks (o : opt) : bool := match o with o_follow_forks => true | _ => false end.
Definition is_output_separately (o : opt) : bool := match o with o_output_separately => true | _ => false end.
Definition is_F (o : opt) : bool := match o with o_F => true | _ => false end.
Definition is_kill (o : opt) : bool := match o with o_kill_on_exit => true | _ => false end.
Definition is_o (o : opt) : bool := match o with o_o _ => true | _ => false end.
Definition is_q (o : opt) : bool := match o with o_q => true | _ => false end.
Definition is_t (o : opt) : bool := match o with o_t => true | _ => false end.
Definition is_timestamps (o : opt) : bool := match o with o_timestamps _ => true | _ => false end.
Definition is_U (o : opt) : bool := match o with o_U => true | _ => false end.
Definition is_w (o : opt) : bool := match o with o_w => true | _ => false end.
Definition is_x (o : opt) : bool := match o with o_x => true | _ => false end.
Definition is_hex (o : opt) : bool := match o with o_strings_in_hex _ => true | _ => false end.
Definition is_y (o : opt) : bool := match o with o_y => true | _ => false end.
Definition is_seccomp (o : opt) : bool := match o with o_seccomp_bpf => true | _ => false end.
Definition is_limit (o : opt) : bool := match o with o_syscall_limit _ => true | _ => false end.
Definition is_argv0 (o : opt) : bool := match o with o_argv0 => true | _ => false end.
Definition is_show_pid (o : opt) : bool := match o with o_always_show_pid => true | _ => false end.

(** ** What is accepted, and the settings.  [sep]: every process has its own file *)
Definition summary (l : list opt) : bool := has is_c l || has is_C l.
Definition follow (l : list opt) : bool := has is_f l || has is_follow_forks l.
Definition daemon (l : list opt) : bool := has is_D l || has is_daemonize l.
Definition piped (l : list opt) : Prop := exists c s, (c = ch "|" \/ c = ch "!") /\ latest r_o l None (Some (c :: s)).
Record accepted (e : env) (sep : bool) (l : list opt) : Prop := {
  a_wf : forall o, In o l -> wf e o;
  a_cC : ~ (has is_c l = true /\ has is_C l = true);
  a_what : forall ps, collected (r_procs e) l ps -> program e = true \/ ps <> [];
  a_argv0 : has is_argv0 l = true -> program e = true;
  a_daemon1 : ~ (has is_D l = true /\ has is_daemonize l = true);
  a_daemon2 : daemon l = true -> program e = true;
  a_daemon3 : times is_D l <= 3;
  a_t : ~ (has is_t l = true /\ has is_timestamps l = true);
  a_x : ~ (has is_x l = true /\ has is_hex l = true);
  a_y : ~ (has is_y l = true /\ changes DecodeFd l);
  a_f : ~ (has is_f l = true /\ has is_follow_forks l = true);
  a_ff : ~ (2 <= times is_f l /\ has is_output_separately l = true);
  a_sep : ~ (sep = true /\ summary l = true);
  a_w : has is_w l = true -> summary l = true;
  a_U : has is_U l = true -> summary l = true;
  a_kill : forall ps, has is_kill l = true -> collected (r_procs e) l ps -> ps = [] /\ exitkill e = true;
  a_pipe : ~ (sep = true /\ piped l);
  a_q : ~ (has is_q l = true /\ changes Quiet l) }.
Record settings (e : env) (sep : bool) (l : list opt) (x : st) : Prop := {
  s_column : latest r_a l 40 (acolumn x);
  s_strlen : latest r_s l 32 (max_strlen x);
  s_summary : cflag x = if has is_c l then 1 else if has is_C l then 2 else 0;
  s_daemon : if has is_D l then daemonized x = times is_D l else latest r_daemonize l 0 (daemonized x);
  s_follow : followfork x = follow l || has is_F l;
  s_separately : separately x = sep && has is_o l;
  s_intr : latest r_I l (if daemon l then 4 else if has is_o l && program e then 3 else 2) (intr x);
  s_kill : kill_on_exit x = has is_kill l;
  s_out : latest r_o l None (outfname x);
  s_procs : collected (r_procs e) l (procs x);
  s_r : latest r_r l None (rflag x);
  s_T : latest r_T l None (Tflag x);
  s_t : if has is_t l then (tfmt x, tdig x) = (if times is_t l =? 1 then (1, 0) else if times is_t l =? 2 then (1, 6) else (2, 6))
        else latest r_dig l 0 (tdig x) /\ exists g b, latest r_fmt l 0 g /\ latest r_unstated l false b /\ tfmt x = if (g =? 0) && b then 1 else g;
  s_U : columns_set x = has is_U l;
  s_w : wallclock x = has is_w l;
  s_x : if has is_x l then xflag x = N.min 2 (times is_x l) else exists v, latest r_hex l None v /\ xflag x = match v with Some n => n | None => 0 end;
  s_X : latest r_X l 2 (xlat x);
  s_limit : latest r_limit l None (syscall_limit x);
  s_detach : detach x = has is_b l;
  s_seccomp : seccomp x = has is_seccomp l && follow l && negb (has is_b l) && negb (has is_limit l) && (program e || match procs x with [] => true | _ => false end) && seccomp_ok e;
  s_set : forall k, k <> Quiet -> k <> DecodeFd -> k <> Fault -> k <> Inject -> latest (r_set k) l (initial k) (quals x k);
  s_y : if has is_y l then quals x DecodeFd = Some (if times is_y l =? 1 then bs "path" else bs "all") else latest (r_set DecodeFd) l (initial DecodeFd) (quals x DecodeFd);
  s_q : if has is_q l then quals x Quiet = Some (if times is_q l =? 1 then bs "attach,personality" else if times is_q l =? 2 then bs "exit,attach,personality" else bs "all")
        else latest (r_set Quiet) l (if has is_o l && program e then Some (bs "attach,personality") else initial Quiet) (quals x Quiet);
  s_inject : collected r_inject l (injects x);
  s_pid : pid_pfx x = (has is_o l && negb (separately x) && (followfork x || (2 <=? N.of_nat (length (procs x)) + (if program e then 1 else 0)))) || has is_show_pid l }.
(** as documented: -ff or --output-separately *)
Definition separate (l : list opt) : bool := (2 <=? times is_f l) || has is_output_separately l.
(** as it is: --output-separately is forgotten when there is one -f *)
Definition separate_actual (l : list opt) : bool := if has is_f l then 2 <=? times is_f l else has is_output_separately l.
