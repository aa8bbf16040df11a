(** Reading what is printed behind a system call. *)
From Verif Require Import Base Printf TimeModel TimeSpec RetModel.
Local Open Scope N_scope.

(** The text up to the first space, and from there on. *)
Fixpoint word (s : list N) : list N * list N :=
  match s with
  | [] => ([], [])
  | c :: r => if c =? 32 then ([], s) else let (w, k) := word r in (c :: w, k)
  end.
(** A number as in C: 0x1f, 017, 15, -15. *)
Definition c_number (s : list N) : option Z :=
  let z := option_map Z.of_N in
  match s with
  | [] => None
  | 45 :: r => option_map Z.opp (z (rd_num 10 0 r))
  | 48 :: 120 :: r => z (rd_num 16 0 r)
  | 48 :: (_ :: _) as r => z (rd_num 8 0 r)
  | _ => z (rd_num 10 0 s)
  end.
(** The texts in parentheses: " (a) (b)". *)
Fixpoint upto_close (s : list N) : option (list N * list N) :=
  match s with
  | [] => None
  | c :: r => if c =? 41 then Some ([], r)
              else match upto_close r with Some (w, k) => Some (c :: w, k) | None => None end
  end.
Fixpoint groups (fuel : nat) (s : list N) : option (list (list N) * list N) :=
  match fuel, s with
  | S f, 32 :: 40 :: r =>
      match upto_close r with
      | Some (w, k) => match groups f k with Some (l, k) => Some (w :: l, k) | None => None end
      | None => None
      end
  | _, _ => Some ([], s)
  end.
(** " <12.345>": 12345 thousandths of a second. *)
Fixpoint decimal (acc : N) (places : option nat) (s : list N) : option (N * nat) :=
  match s with
  | [62] => Some (acc, match places with Some n => n | None => O end)
  | 46 :: r => match places with None => decimal acc (Some O) r | Some _ => None end
  | c :: r => if (48 <=? c) && (c <=? 57) then decimal (10 * acc + (c - 48)) (option_map S places) r else None
  | [] => None
  end.
Definition read_time (s : list N) : option (option (N * nat)) :=
  match s with
  | [] => Some None
  | 32 :: 60 :: r => option_map Some (decimal 0 None r)
  | _ => None
  end.

(** What a reader of the log sees: "= value [ERROR] (text)... <time>".  The value is absent if it is "?". *)
Record seen := { value : option Z; error : option (list N); texts : list (list N); time : option (N * nat) }.
Definition read_result (s : list N) : option seen :=
  match s with
  | 61 :: 32 :: r =>
      let (v, k) := word r in
      olet n := (if beqs v (bs "?") then Some None else option_map Some (c_number v)) in
      let (e, k) := match k with
             | 32 :: c :: _ => if (c =? 40) || (c =? 60) then (None, k) else let (w, k) := word (tl k) in (Some w, k)
             | _ => (None, k)
             end in
      olet (l, k) := groups (length k) k in
      olet t := read_time k in
      Some {| value := n; error := e; texts := l; time := t |}
  | _ => None
  end.

(** A text that may stand in parentheses. *)
Definition quiet (s : list N) : Prop := ~ In 41 s.

(** The notes at the end. *)
Definition notes (c : rcfg) : list (list N) :=
  (if israw c then [] else match aux c with Some s => [s] | None => [] end) ++
  (if tampered c || poked c
   then [if poked c then (if tampered c then bs "INJECTED: args, retval" else bs "INJECTED: args") else bs "INJECTED"] else []) ++
  (if delayed c then [bs "DELAYED"] else []).

(** The value a call returned, in a kernel long of the tracee. *)
Definition same_mod (bits : Z) (a : Z) (b : N) : Prop := (a mod 2^bits = Z.of_N b mod 2^bits)%Z.

(** The time of the call, cut off after [w] digits. *)
Definition took (c : rcfg) (w : nat) (n : N) : Prop :=
  (Z.of_N n * 10 ^ (9 - Z.of_nat w) <= ns (xtime c) - ns (etime c) < (Z.of_N n + 1) * 10 ^ (9 - Z.of_nat w))%Z.
Definition time_right (c : rcfg) (t : option (N * nat)) : Prop :=
  match tflag c, t with
  | Some w, Some (n, w') => w' = w /\ took c w n
  | None, None => True
  | _, _ => False
  end.
(** What holds of a call: the numbers after the decimal point are at most nine, the clock does not run backwards,
    the texts have no closing parenthesis. *)
Definition call_ok (strerror : N -> list N) (c : rcfg) : Prop :=
  (forall w, tflag c = Some w -> (w <= 9)%nat) /\ normal (etime c) /\ normal (xtime c) /\ (ns (etime c) <= ns (xtime c))%Z /\
  (forall e, quiet (strerror e)) /\ (forall s, aux c = Some s -> quiet s).

(** The calls shown as failed, and those of which the kernel will restart the call: there the value is "?". *)
Definition fails (c : rcfg) (err : N) : Prop := err <> 0 /\ (israw c = true \/ none c = false).
Definition restarts (c : rcfg) (err : N) : Prop := israw c = false /\ In err [512; 513; 514; 516].

(** errno(3), <asm-generic/errno.h> and, for the numbers from 512 on, <linux/errno.h>, in alphabetical order. *)
Definition linux_errors : list (list N * N) :=
  [(bs "E2BIG", 7); (bs "EACCES", 13); (bs "EADDRINUSE", 98); (bs "EADDRNOTAVAIL", 99); (bs "EADV", 68);
   (bs "EAFNOSUPPORT", 97); (bs "EAGAIN", 11); (bs "EALREADY", 114); (bs "EBADCOOKIE", 523); (bs "EBADE", 52);
   (bs "EBADF", 9); (bs "EBADFD", 77); (bs "EBADHANDLE", 521); (bs "EBADMSG", 74); (bs "EBADR", 53);
   (bs "EBADRQC", 56); (bs "EBADSLT", 57); (bs "EBADTYPE", 527); (bs "EBFONT", 59); (bs "EBUSY", 16);
   (bs "ECANCELED", 125); (bs "ECHILD", 10); (bs "ECHRNG", 44); (bs "ECOMM", 70); (bs "ECONNABORTED", 103);
   (bs "ECONNREFUSED", 111); (bs "ECONNRESET", 104); (bs "EDEADLK", 35); (bs "EDESTADDRREQ", 89);
   (bs "EDOM", 33); (bs "EDOTDOT", 73); (bs "EDQUOT", 122); (bs "EEXIST", 17); (bs "EFAULT", 14);
   (bs "EFBIG", 27); (bs "EHOSTDOWN", 112); (bs "EHOSTUNREACH", 113); (bs "EHWPOISON", 133); (bs "EIDRM", 43);
   (bs "EILSEQ", 84); (bs "EINPROGRESS", 115); (bs "EINTR", 4); (bs "EINVAL", 22); (bs "EIO", 5);
   (bs "EIOCBQUEUED", 529); (bs "EISCONN", 106); (bs "EISDIR", 21); (bs "EISNAM", 120); (bs "EJUKEBOX", 528);
   (bs "EKEYEXPIRED", 127); (bs "EKEYREJECTED", 129); (bs "EKEYREVOKED", 128); (bs "EL2HLT", 51);
   (bs "EL2NSYNC", 45); (bs "EL3HLT", 46); (bs "EL3RST", 47); (bs "ELIBACC", 79); (bs "ELIBBAD", 80);
   (bs "ELIBEXEC", 83); (bs "ELIBMAX", 82); (bs "ELIBSCN", 81); (bs "ELNRNG", 48); (bs "ELOOP", 40);
   (bs "EMEDIUMTYPE", 124); (bs "EMFILE", 24); (bs "EMLINK", 31); (bs "EMSGSIZE", 90); (bs "EMULTIHOP", 72);
   (bs "ENAMETOOLONG", 36); (bs "ENAVAIL", 119); (bs "ENETDOWN", 100); (bs "ENETRESET", 102);
   (bs "ENETUNREACH", 101); (bs "ENFILE", 23); (bs "ENOANO", 55); (bs "ENOBUFS", 105); (bs "ENOCSI", 50);
   (bs "ENODATA", 61); (bs "ENODEV", 19); (bs "ENOENT", 2); (bs "ENOEXEC", 8); (bs "ENOIOCTLCMD", 515);
   (bs "ENOKEY", 126); (bs "ENOLCK", 37); (bs "ENOLINK", 67); (bs "ENOMEDIUM", 123); (bs "ENOMEM", 12);
   (bs "ENOMSG", 42); (bs "ENONET", 64); (bs "ENOPKG", 65); (bs "ENOPROTOOPT", 92); (bs "ENOSPC", 28);
   (bs "ENOSR", 63); (bs "ENOSTR", 60); (bs "ENOSYS", 38); (bs "ENOTBLK", 15); (bs "ENOTCONN", 107);
   (bs "ENOTDIR", 20); (bs "ENOTEMPTY", 39); (bs "ENOTNAM", 118); (bs "ENOTRECOVERABLE", 131);
   (bs "ENOTSOCK", 88); (bs "ENOTSUPP", 524); (bs "ENOTSYNC", 522); (bs "ENOTTY", 25); (bs "ENOTUNIQ", 76);
   (bs "ENXIO", 6); (bs "EOPENSTALE", 518); (bs "EOPNOTSUPP", 95); (bs "EOVERFLOW", 75); (bs "EOWNERDEAD", 130);
   (bs "EPERM", 1); (bs "EPFNOSUPPORT", 96); (bs "EPIPE", 32); (bs "EPROBE_DEFER", 517); (bs "EPROTO", 71);
   (bs "EPROTONOSUPPORT", 93); (bs "EPROTOTYPE", 91); (bs "ERANGE", 34); (bs "ERECALLCONFLICT", 530);
   (bs "EREMCHG", 78); (bs "EREMOTE", 66); (bs "EREMOTEIO", 121); (bs "ERESTART", 85);
   (bs "ERESTARTNOHAND", 514); (bs "ERESTARTNOINTR", 513); (bs "ERESTARTSYS", 512);
   (bs "ERESTART_RESTARTBLOCK", 516); (bs "ERFKILL", 132); (bs "EROFS", 30); (bs "ESERVERFAULT", 526);
   (bs "ESHUTDOWN", 108); (bs "ESOCKTNOSUPPORT", 94); (bs "ESPIPE", 29); (bs "ESRCH", 3); (bs "ESRMNT", 69);
   (bs "ESTALE", 116); (bs "ESTRPIPE", 86); (bs "ETIME", 62); (bs "ETIMEDOUT", 110); (bs "ETOOMANYREFS", 109);
   (bs "ETOOSMALL", 525); (bs "ETXTBSY", 26); (bs "EUCLEAN", 117); (bs "EUNATCH", 49); (bs "EUSERS", 87);
   (bs "EXDEV", 18); (bs "EXFULL", 54)].
