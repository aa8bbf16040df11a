(** How resource limits, times and dates are shown: src/resource.c:19-113, src/print_timespec.h:22-182, src/print_timeval.c:21-113,
    src/util.c:484-535.
    The memory of the tracee and umove are those of ExtModel (see C32).  localtime and strftime are the C library's: localtime is any function, strftime
    is modelled below for the formats used.  [sx w]: the value of a signed member of [w] bytes. *)
From Verif Require Import Base Printf InfoModel.
From Verif Require ExtModel.
Local Open Scope N_scope.

(** xlat_verbose(xlat_verbosity) *)
Inductive style := Raw | Abbrev | Verbose.
(** %llu, %lld, %#llx *)
Definition udec (n : N) : list N := pr_num 10 n.
Definition sdec (z : Z) : list N := if (z <? 0)%Z then bs "-" ++ pr_num 10 (Z.to_N (- z)) else pr_num 10 (Z.to_N z).
Definition hexa (a : N) : list N := if a =? 0 then bs "0" else bs "0x" ++ pr_num 16 a.
Definition sx (w : nat) (v : N) : Z :=
  let m := (2 ^ (8 * Z.of_nat w))%Z in if (Z.of_N v <? m / 2)%Z then Z.of_N v else (Z.of_N v - m)%Z.
(** src/util.c:399-406 printaddr64 *)
Definition printaddr (a : N) : list N := if a =? 0 then bs "NULL" else bs "0x" ++ pr_num 16 a.
(** src/strace.c:785-793 tprints_comment; None: NULL *)
Definition comment (t : option (list N)) : list N :=
  match t with Some [] | None => [] | Some s => bs " /* " ++ s ++ bs " */" end.
(** src/xstring.h:32-55 xsprintf into a buffer of [size] bytes *)
Definition xsprintf (size : N) (t : list N) : res (list N) := if N.of_nat (length t) <? size then Ok t else Die.

(** src/resource.c:28-39 = 69-80: [str] if any, and [lim], in the style *)
Definition show_lim (st : style) (str : option (list N)) (lim : N) : list N :=
  (match str, st with Some _, Abbrev => [] | _, _ => udec lim end) ++
  (match str, st with
   | None, _ | _, Raw => []
   | Some s, Verbose => comment (Some s)
   | Some s, Abbrev => s
   end).
(** src/resource.c:19-40; the buffer: sizeof(lim) * 3 + sizeof("*1024") *)
Definition print_rlim64_t (st : style) (lim : N) : res (list N) :=
  if lim =? 2 ^ 64 - 1 then Ok (show_lim st (Some (bs "RLIM64_INFINITY")) lim)
  else if (1024 <? lim) && (lim mod 1024 =? 0) then
    rlet s := xsprintf (8 * 3 + 6) (udec (lim / 1024) ++ bs "*1024") in Ok (show_lim st (Some s) lim)
  else Ok (show_lim st None lim).
(** src/resource.c:60-81 *)
Definition print_rlim32_t (st : style) (lim : N) : res (list N) :=
  if lim =? 2 ^ 32 - 1 then Ok (show_lim st (Some (bs "RLIM_INFINITY")) lim)
  else if (1024 <? lim) && (lim mod 1024 =? 0) then
    rlet s := xsprintf (4 * 3 + 6) (udec (lim / 1024) ++ bs "*1024") in Ok (show_lim st (Some s) lim)
  else Ok (show_lim st None lim).
(** {rlim_cur=..., rlim_max=...} *)
Definition rlim_struct (a b : res (list N)) : res (list N) :=
  rlet x := a in rlet y := b in Ok (bs "{rlim_cur=" ++ x ++ bs ", rlim_max=" ++ y ++ bs "}").
(** src/resource.c:42-57, 83-98 *)
Definition print_rlimit64 (o : ExtModel.opts) (m : ExtModel.memory) (st : style) (addr : N) : res (list N) :=
  match ExtModel.umoven_or_printaddr o m addr 16 with
  | None => Ok (printaddr addr)
  | Some b => rlim_struct (print_rlim64_t st (ld b 0 8)) (print_rlim64_t st (ld b 8 8))
  end.
Definition print_rlimit32 (o : ExtModel.opts) (m : ExtModel.memory) (st : style) (addr : N) : res (list N) :=
  match ExtModel.umoven_or_printaddr o m addr 8 with
  | None => Ok (printaddr addr)
  | Some b => rlim_struct (print_rlim32_t st (ld b 0 4)) (print_rlim32_t st (ld b 4 4))
  end.
(** src/resource.c:100-113; [klong]: current_klongsize *)
Definition decode_rlimit (klong : N) (o : ExtModel.opts) (m : ExtModel.memory) (st : style) (addr : N) : res (list N) :=
  if klong =? 4 then print_rlimit32 o m st addr else print_rlimit64 o m st addr.

(** ---- times ----
    A kind of time: the size of its two members (kernel_timespec32_t 4, kernel_timespec64_t 8, timeval_t 4 or 8) and the name of the second. *)
Record kind := { w : nat; sub : list N }.
Definition size (k : kind) : nat := (2 * w k)%nat.
Definition tv_sec (k : kind) (b : list N) : Z := sx (w k) (ld b 0 (w k)).
(** zero_extend_signed_to_ull *)
Definition tv_sub (k : kind) (b : list N) : N := ld b (w k) (w k).
(** src/print_timespec.h:29-38 print_timespec_t, src/print_timeval.c:23-31 print_timeval_t *)
Definition print_t (k : kind) (b : list N) : list N :=
  bs "{tv_sec=" ++ sdec (tv_sec k b) ++ bs ", " ++ sub k ++ bs "=" ++ udec (tv_sub k b) ++ bs "}".
(** src/print_timespec.h:50-62; src/print_timeval.c:48-58; [b]: the [n] bytes at arg *)
Definition print_data_size (k : kind) (b : list N) (n : nat) : list N * bool :=
  if (n <? size k)%nat then (bs "???", false) else (print_t k (firstn (size k) b), true).
(** src/print_timespec.h:75-82: the elements from number [i] on; [arg]: the bytes from there on *)
Fixpoint array_loop (k : kind) (i n : nat) (arg : list N) : list N :=
  match n with
  | O => []
  | S n => (match i with O => [] | _ => bs ", " end) ++ print_t k (firstn (size k) arg) ++ array_loop k (S i) n (skipn (size k) arg)
  end.
(** src/print_timespec.h:64-86 *)
Definition print_array_data_size (k : kind) (b : list N) (nmemb n : nat) : list N * bool :=
  if (n / size k <? nmemb)%nat then (bs "???", false) else (bs "[" ++ array_loop k 0 nmemb b ++ bs "]", true).
(** src/print_timespec.h:88-100, src/print_timeval.c:60-70 *)
Definition print_time (k : kind) (o : ExtModel.opts) (m : ExtModel.memory) (addr : N) : list N * bool :=
  match ExtModel.umoven_or_printaddr o m addr (size k) with
  | None => (printaddr addr, false)
  | Some b => (print_t k b, true)
  end.
(** src/print_timespec.h:103-121, src/print_timeval.c:84-103; the buffer: sizeof(timespec_fmt) + 3 * sizeof(t) *)
Definition fmt (k : kind) : list N := bs "{tv_sec=%lld, " ++ sub k ++ bs "=%llu}".
Definition sprint_time (k : kind) (o : ExtModel.opts) (m : ExtModel.memory) (addr : N) : res (list N) :=
  let buf := N.of_nat (length (fmt k) + 1 + 3 * size k) in
  if addr =? 0 then Ok (bs "NULL")
  else if negb (ExtModel.verbose o) || ExtModel.failed o then xsprintf buf (hexa addr)
  else match ExtModel.umoven m addr (size k) with
       | None => xsprintf buf (hexa addr)
       | Some b => xsprintf buf (bs "{tv_sec=" ++ sdec (tv_sec k b) ++ bs ", " ++ sub k ++ bs "=" ++ udec (tv_sub k b) ++ bs "}")
       end.
(** src/print_timespec.h:167-181, src/print_timeval.c:105-121 *)
Definition print_itimer (k : kind) (o : ExtModel.opts) (m : ExtModel.memory) (addr : N) : list N * bool :=
  match ExtModel.umoven_or_printaddr o m addr (2 * size k) with
  | None => (printaddr addr, false)
  | Some b => (bs "{it_interval=" ++ print_t k (firstn (size k) b) ++ bs ", it_value=" ++ print_t k (firstn (size k) (skipn (size k) b)) ++ bs "}", true)
  end.

(** ---- dates ----
    struct tm: the members used; the year is tm_year + 1900. *)
Record tm := { year : Z; mon : N; mday : N; hour : N; min : N; sec : N; gmtoff : Z }.
(** %Y: some C libraries write at least four digits *)
Definition yr (pad : bool) (y : Z) : list N :=
  if pad then (if (y <? 0)%Z then bs "-" ++ pr_pad 10 3 (Z.to_N (- y)) else pr_pad 10 4 (Z.to_N y)) else sdec y.
(** %FT%T *)
Definition ft (pad : bool) (t : tm) : list N :=
  yr pad (year t) ++ bs "-" ++ pr_pad 10 2 (mon t) ++ bs "-" ++ pr_pad 10 2 (mday t) ++ bs "T"
  ++ pr_pad 10 2 (hour t) ++ bs ":" ++ pr_pad 10 2 (min t) ++ bs ":" ++ pr_pad 10 2 (sec t).
(** %z: hours and minutes *)
Definition zone (off : Z) : list N :=
  let a := Z.to_N (Z.abs off / 60) in
  (if (off <? 0)%Z then bs "-" else bs "+") ++ pr_pad 10 2 (a / 60) ++ pr_pad 10 2 (a mod 60).
(** strftime into [room] bytes: None: 0 *)
Definition strftime (room : N) (t : list N) : option (list N) := if N.of_nat (length t) <? room then Some t else None.
(** src/util.c:495-519; time_t has 64 bits; the buffer: sizeof(int) * 3 * 6 + sizeof(part_sec) * 3 + sizeof("+0000") *)
Definition sprinttime_ex (lt : Z -> option tm) (pad : bool) (s : Z) (part max_part : N) (width : nat) : res (option (list N)) :=
  let buf := 4 * 3 * 6 + 8 * 3 + 6 in
  if ((s =? 0)%Z && (part =? 0)) || (max_part <? part) then Ok None
  else match lt s with
       | None => Ok None
       | Some t =>
           match strftime buf (ft pad t) with
           | None => Ok None
           | Some a =>
               rlet b := if 0 <? part then xsprintf (buf - N.of_nat (length a)) (bs "." ++ pr_pad 10 width part) else Ok [] in
               match strftime (buf - N.of_nat (length a) - N.of_nat (length b)) (zone (gmtoff t)) with
               | None => Ok None
               | Some z => Ok (Some (a ++ b ++ z))
               end
           end
       end.
(** src/util.c:521-537 *)
Definition sprinttime lt pad s := sprinttime_ex lt pad s 0 0 0.
Definition sprinttime_usec lt pad s usec := sprinttime_ex lt pad s usec 999999 6.
Definition sprinttime_nsec lt pad s nsec := sprinttime_ex lt pad s nsec 999999999 9.

(** src/print_timespec.h:13-18 *)
Definition UTIME_NOW : N := 2 ^ 30 - 1.
Definition UTIME_OMIT : N := 2 ^ 30 - 2.
(** src/print_timespec.h:124-145 *)
Definition print_timespec_t_utime (lt : Z -> option tm) (pad : bool) (st : style) (k : kind) (b : list N) : res (list N) :=
  let v := tv_sub k b in
  if (v =? UTIME_NOW) || (v =? UTIME_OMIT) then
    let name := if v =? UTIME_NOW then bs "UTIME_NOW" else bs "UTIME_OMIT" in
    Ok ((match st with Abbrev => [] | _ => print_t k b end) ++
        (match st with Raw => [] | Verbose => comment (Some name) | Abbrev => name end))
  else rlet c := sprinttime_nsec lt pad (tv_sec k b) v in Ok (print_t k b ++ comment c).
(** src/print_timeval.c:33-41 *)
Definition print_timeval_t_utime (lt : Z -> option tm) (pad : bool) (k : kind) (b : list N) : res (list N) :=
  rlet c := sprinttime_usec lt pad (tv_sec k b) (tv_sub k b) in Ok (print_t k b ++ comment c).
(** print_local_array of two elements (see C49); [most]: max_strlen if abbrev(tcp) *)
Definition pair_array (most : option N) (a b : res (list N)) : res (list N) :=
  match most with
  | Some 0 => Ok (bs "[...]")
  | Some 1 => rlet x := a in Ok (bs "[" ++ x ++ bs ", ...]")
  | _ => rlet x := a in rlet y := b in Ok (bs "[" ++ x ++ bs ", " ++ y ++ bs "]")
  end.
(** src/print_timespec.h:147-158, src/print_timeval.c:72-82; [item]: print_timespec_t_utime or print_timeval_t_utime *)
Definition print_utime_pair (item : list N -> res (list N)) (k : kind) (most : option N) (o : ExtModel.opts) (m : ExtModel.memory) (addr : N) : res (list N * bool) :=
  match ExtModel.umoven_or_printaddr o m addr (2 * size k) with
  | None => Ok (printaddr addr, false)
  | Some b => rlet t := pair_array most (item (firstn (size k) b)) (item (firstn (size k) (skipn (size k) b))) in Ok (t, true)
  end.
