(** What is printed behind a system call: the result.  src/syscall.c.
    Simplifications: -y, --decode-pids and structured output are left out: descriptors
    and process IDs are printed as numbers.  The text strerror gives is a parameter. *)
From Coq Require Import String.
From Verif Require Import Base QuoteModel Printf XlatModel TimeModel.
Import List.
Local Open Scope N_scope.

(** src/linux/generic/errnoent.h *)
Definition errnoent : list (N * string) :=
  [(1, "EPERM"%string); (2, "ENOENT"%string); (3, "ESRCH"%string); (4, "EINTR"%string); (5, "EIO"%string); (6, "ENXIO"%string); (7, "E2BIG"%string); (8,
   "ENOEXEC"%string); (9, "EBADF"%string); (10, "ECHILD"%string); (11, "EAGAIN"%string); (12, "ENOMEM"%string); (13, "EACCES"%string); (14,
   "EFAULT"%string); (15, "ENOTBLK"%string); (16, "EBUSY"%string); (17, "EEXIST"%string); (18, "EXDEV"%string); (19, "ENODEV"%string); (20,
   "ENOTDIR"%string); (21, "EISDIR"%string); (22, "EINVAL"%string); (23, "ENFILE"%string); (24, "EMFILE"%string); (25, "ENOTTY"%string); (26,
   "ETXTBSY"%string); (27, "EFBIG"%string); (28, "ENOSPC"%string); (29, "ESPIPE"%string); (30, "EROFS"%string); (31, "EMLINK"%string); (32,
   "EPIPE"%string); (33, "EDOM"%string); (34, "ERANGE"%string); (35, "EDEADLK"%string); (36, "ENAMETOOLONG"%string); (37, "ENOLCK"%string); (38,
   "ENOSYS"%string); (39, "ENOTEMPTY"%string); (40, "ELOOP"%string); (42, "ENOMSG"%string); (43, "EIDRM"%string); (44, "ECHRNG"%string); (45,
   "EL2NSYNC"%string); (46, "EL3HLT"%string); (47, "EL3RST"%string); (48, "ELNRNG"%string); (49, "EUNATCH"%string); (50, "ENOCSI"%string); (51,
   "EL2HLT"%string); (52, "EBADE"%string); (53, "EBADR"%string); (54, "EXFULL"%string); (55, "ENOANO"%string); (56, "EBADRQC"%string); (57,
   "EBADSLT"%string); (59, "EBFONT"%string); (60, "ENOSTR"%string); (61, "ENODATA"%string); (62, "ETIME"%string); (63, "ENOSR"%string); (64,
   "ENONET"%string); (65, "ENOPKG"%string); (66, "EREMOTE"%string); (67, "ENOLINK"%string); (68, "EADV"%string); (69, "ESRMNT"%string); (70,
   "ECOMM"%string); (71, "EPROTO"%string); (72, "EMULTIHOP"%string); (73, "EDOTDOT"%string); (74, "EBADMSG"%string); (75, "EOVERFLOW"%string); (76,
   "ENOTUNIQ"%string); (77, "EBADFD"%string); (78, "EREMCHG"%string); (79, "ELIBACC"%string); (80, "ELIBBAD"%string); (81, "ELIBSCN"%string); (82,
   "ELIBMAX"%string); (83, "ELIBEXEC"%string); (84, "EILSEQ"%string); (85, "ERESTART"%string); (86, "ESTRPIPE"%string); (87, "EUSERS"%string); (88,
   "ENOTSOCK"%string); (89, "EDESTADDRREQ"%string); (90, "EMSGSIZE"%string); (91, "EPROTOTYPE"%string); (92, "ENOPROTOOPT"%string); (93,
   "EPROTONOSUPPORT"%string); (94, "ESOCKTNOSUPPORT"%string); (95, "EOPNOTSUPP"%string); (96, "EPFNOSUPPORT"%string); (97, "EAFNOSUPPORT"%string); (98,
   "EADDRINUSE"%string); (99, "EADDRNOTAVAIL"%string); (100, "ENETDOWN"%string); (101, "ENETUNREACH"%string); (102, "ENETRESET"%string); (103,
   "ECONNABORTED"%string); (104, "ECONNRESET"%string); (105, "ENOBUFS"%string); (106, "EISCONN"%string); (107, "ENOTCONN"%string); (108,
   "ESHUTDOWN"%string); (109, "ETOOMANYREFS"%string); (110, "ETIMEDOUT"%string); (111, "ECONNREFUSED"%string); (112, "EHOSTDOWN"%string); (113,
   "EHOSTUNREACH"%string); (114, "EALREADY"%string); (115, "EINPROGRESS"%string); (116, "ESTALE"%string); (117, "EUCLEAN"%string); (118,
   "ENOTNAM"%string); (119, "ENAVAIL"%string); (120, "EISNAM"%string); (121, "EREMOTEIO"%string); (122, "EDQUOT"%string); (123, "ENOMEDIUM"%string);
   (124, "EMEDIUMTYPE"%string); (125, "ECANCELED"%string); (126, "ENOKEY"%string); (127, "EKEYEXPIRED"%string); (128, "EKEYREVOKED"%string); (129,
   "EKEYREJECTED"%string); (130, "EOWNERDEAD"%string); (131, "ENOTRECOVERABLE"%string); (132, "ERFKILL"%string); (133, "EHWPOISON"%string); (512,
   "ERESTARTSYS"%string); (513, "ERESTARTNOINTR"%string); (514, "ERESTARTNOHAND"%string); (515, "ENOIOCTLCMD"%string); (516,
   "ERESTART_RESTARTBLOCK"%string); (517, "EPROBE_DEFER"%string); (518, "EOPENSTALE"%string); (521, "EBADHANDLE"%string); (522, "ENOTSYNC"%string); (523,
   "EBADCOOKIE"%string); (524, "ENOTSUPP"%string); (525, "ETOOSMALL"%string); (526, "ESERVERFAULT"%string); (527, "EBADTYPE"%string); (528,
   "EJUKEBOX"%string); (529, "EIOCBQUEUED"%string); (530, "ERECALLCONFLICT"%string)].
(** src/syscall.c:412-416 err_name *)
Definition err_name (err : N) : option (list N) :=
  match find (fun e => fst e =? err) errnoent with Some e => Some (bs (snd e)) | None => None end.

(** the value of a 64-bit or 32-bit pattern as a signed number *)
Definition sgn64 (v : N) : Z := if v <? 2^63 then Z.of_N v else (Z.of_N v - 2^64)%Z.
Definition sgn32 (v : N) : Z := if u32 v <? 2^31 then Z.of_N (u32 v) else (Z.of_N (u32 v) - 2^32)%Z.
(** %lld *)
Definition pr_z (z : Z) : list N := if (z <? 0)%Z then bs "-" ++ pr_num 10 (Z.to_N (- z)) else pr_num 10 (Z.to_N z).
(** src/print_fields.h:321-322 PRINT_VAL_D of a 64-bit value; 324-325 PRINT_VAL_U; 327-328 PRINT_VAL_X;
    330-331 PRINT_VAL_03O: "%#03llo" *)
Definition print_val_d (v : N) : list N := pr_z (sgn64 v).
Definition print_val_u (v : N) : list N := pr_num 10 v.
Definition print_val_x (v : N) : list N := pr_hex v.
Definition print_val_03o (v : N) : list N :=
  let d := if v =? 0 then bs "0" else bs "0" ++ pr_num 8 v in repeat 48 (3 - List.length d) ++ d.

(** src/print_fields.h:297-308 *)
Definition sysret_next : list N := bs " ".
Definition sysret_string (s : list N) : list N := sysret_next ++ bs "(" ++ s ++ bs ")".

(** src/syscall.c:432-449 print_err_ret *)
Definition print_err_ret (strerror : N -> list N) (ret u_error : N) : list N :=
  sysret_next ++ print_val_d ret ++
  match err_name u_error with
  | Some s => sysret_next ++ s ++ sysret_string (strerror u_error)
  | None => sysret_next ++ bs "(errno " ++ pr_num 10 u_error ++ bs ")"
  end.
(** src/syscall.c:777-785 print_erestart *)
Definition print_erestart (err_short err_long : list N) : list N :=
  sysret_next ++ bs "?" ++ sysret_next ++ err_short ++ sysret_string err_long.
(** src/syscall.c:763-775 print_injected_note *)
Definition print_injected_note (tampered poked delayed : bool) : list N :=
  (if tampered && poked then sysret_string (bs "INJECTED: args, retval")
   else if poked then sysret_string (bs "INJECTED: args")
   else if tampered then sysret_string (bs "INJECTED")
   else []) ++
  (if delayed then sysret_string (bs "DELAYED") else []).

(** src/defs.h:455-466; PIDs: RVAL_TID, RVAL_SID, RVAL_TGID, RVAL_PGID *)
Inductive rfmt := UDECIMAL | HEX | OCTAL | FD | PID.
(** [k8]: current_klongsize == 8; [raw]; [none]: RVAL_NONE; [fmt]: RVAL_MASK; [aux]: auxstr, with RVAL_STR *)
Record rcfg := { k8 : bool; israw : bool; none : bool; fmt : rfmt; aux : option (list N);
                 tampered : bool; poked : bool; delayed : bool;
                 tflag : option nat; etime : ts; xtime : ts }.
(** [tflag]: -T, with Tflag_width; Tflag_scale is 10^(9 - Tflag_width) (src/strace.c:2635-2642, src/util.c
    str2timescale_ex, C18).  [etime], [xtime]: the time at the entry and the exit of the call.
    src/syscall.c:1008-1018 *)
Definition print_time (c : rcfg) : list N :=
  match tflag c with
  | None => []
  | Some w =>
      let d := ts_sub (xtime c) (etime c) in
      sysret_next ++ bs "<" ++ pr_z (sec d) ++
      (if (w =? 0)%nat then [] else bs "." ++ pr_pad 10 w (Z.to_N (nsec d / 10 ^ (9 - Z.of_nat w)))) ++ bs ">"
  end.

(** src/syscall.c:868-1019 the part of syscall_exiting_trace after tabto() up to the end of the line; in raw mode
    the decoder is not called at the exit and sys_res is 0 (src/syscall.c:832-834) *)
Definition print_result (strerror : N -> list N) (c : rcfg) (u_rval u_error : N) : list N :=
  bs "=" ++
  (if israw c then
     if negb (u_error =? 0) then print_err_ret strerror u_rval u_error
     else sysret_next ++ print_val_x u_rval
   else if negb (none c) && negb (u_error =? 0) then
     if u_error =? 512 then print_erestart (bs "ERESTARTSYS") (bs "To be restarted if SA_RESTART is set")
     else if u_error =? 513 then print_erestart (bs "ERESTARTNOINTR") (bs "To be restarted")
     else if u_error =? 514 then print_erestart (bs "ERESTARTNOHAND") (bs "To be restarted if no handler")
     else if u_error =? 516 then print_erestart (bs "ERESTART_RESTARTBLOCK") (bs "Interrupted by signal")
     else print_err_ret strerror u_rval u_error
   else
     sysret_next ++
     if none c then bs "?"
     else match fmt c with
          | HEX => if k8 c then print_val_x u_rval else print_val_x (u32 u_rval)
          | OCTAL => print_val_03o (if k8 c then u_rval else u32 u_rval)
          | UDECIMAL => if k8 c then print_val_u u_rval else print_val_u (u32 u_rval)
          | FD => if negb (k8 c) || (u_rval <=? 2147483647) then pr_z (sgn32 u_rval) else print_val_d u_rval
          | PID => pr_z (sgn32 u_rval)
          end)
  ++ (if israw c then [] else match aux c with Some s => sysret_string s | None => [] end)
  ++ print_injected_note (tampered c) (poked c) (delayed c)
  ++ print_time c.
