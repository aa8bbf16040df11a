(** How futex calls are shown: src/futex.c, src/futex2.c.
    printxval and printflags are those of XlatModel (see C36, C37), print_array that of ArrayModel (see C49), addresses and arrays as in
    NumaModel.  The text of a time (print_timespec32/64, see C95) is a parameter, as is the name of a clock. *)
From Verif Require Import Base Printf InfoModel XlatModel NumaModel.
From Verif Require BitsModel ExtModel TvalModel ArrayModel.
Local Open Scope N_scope.

(** src/xlat/futexops.in, src/xlat/futexbitset.in, src/xlat/futexwakeops.in, src/xlat/futexwakecmps.in,
    src/xlat/futex2_sizes.in, src/xlat/futex2_flags.in *)
Definition futexops : xlat := {| ty := XT_NORMAL; data :=
  [(0, Some (bs "FUTEX_WAIT")); (1, Some (bs "FUTEX_WAKE")); (2, Some (bs "FUTEX_FD")); (3, Some (bs "FUTEX_REQUEUE")); (4, Some (bs "FUTEX_CMP_REQUEUE"));
   (5, Some (bs "FUTEX_WAKE_OP")); (6, Some (bs "FUTEX_LOCK_PI")); (7, Some (bs "FUTEX_UNLOCK_PI")); (8, Some (bs "FUTEX_TRYLOCK_PI")); (9, Some (bs "FUTEX_WAIT_BITSET"));
   (10, Some (bs "FUTEX_WAKE_BITSET")); (11, Some (bs "FUTEX_WAIT_REQUEUE_PI")); (12, Some (bs "FUTEX_CMP_REQUEUE_PI")); (13, Some (bs "FUTEX_LOCK_PI2"));
   (128, Some (bs "FUTEX_WAIT_PRIVATE")); (129, Some (bs "FUTEX_WAKE_PRIVATE")); (130, Some (bs "FUTEX_FD|FUTEX_PRIVATE_FLAG")); (131, Some (bs "FUTEX_REQUEUE_PRIVATE"));
   (132, Some (bs "FUTEX_CMP_REQUEUE_PRIVATE")); (133, Some (bs "FUTEX_WAKE_OP_PRIVATE")); (134, Some (bs "FUTEX_LOCK_PI_PRIVATE")); (135, Some (bs "FUTEX_UNLOCK_PI_PRIVATE"));
   (136, Some (bs "FUTEX_TRYLOCK_PI_PRIVATE")); (137, Some (bs "FUTEX_WAIT_BITSET_PRIVATE")); (138, Some (bs "FUTEX_WAKE_BITSET_PRIVATE")); (139, Some (bs "FUTEX_WAIT_REQUEUE_PI_PRIVATE"));
   (140, Some (bs "FUTEX_CMP_REQUEUE_PI_PRIVATE")); (141, Some (bs "FUTEX_LOCK_PI2_PRIVATE"));
   (256, Some (bs "FUTEX_WAIT|FUTEX_CLOCK_REALTIME")); (384, Some (bs "FUTEX_WAIT_PRIVATE|FUTEX_CLOCK_REALTIME")); (265, Some (bs "FUTEX_WAIT_BITSET|FUTEX_CLOCK_REALTIME"));
   (393, Some (bs "FUTEX_WAIT_BITSET_PRIVATE|FUTEX_CLOCK_REALTIME")); (267, Some (bs "FUTEX_WAIT_REQUEUE_PI|FUTEX_CLOCK_REALTIME"));
   (395, Some (bs "FUTEX_WAIT_REQUEUE_PI_PRIVATE|FUTEX_CLOCK_REALTIME"))] |}.
Definition futexbitset : xlat := {| ty := XT_NORMAL; data := [(0xffffffff, Some (bs "FUTEX_BITSET_MATCH_ANY"))] |}.
Definition futexwakeops : xlat := {| ty := XT_INDEXED; data :=
  [(0, Some (bs "FUTEX_OP_SET")); (1, Some (bs "FUTEX_OP_ADD")); (2, Some (bs "FUTEX_OP_OR")); (3, Some (bs "FUTEX_OP_ANDN")); (4, Some (bs "FUTEX_OP_XOR"))] |}.
Definition futexwakecmps : xlat := {| ty := XT_INDEXED; data :=
  [(0, Some (bs "FUTEX_OP_CMP_EQ")); (1, Some (bs "FUTEX_OP_CMP_NE")); (2, Some (bs "FUTEX_OP_CMP_LT")); (3, Some (bs "FUTEX_OP_CMP_LE")); (4, Some (bs "FUTEX_OP_CMP_GT")); (5, Some (bs "FUTEX_OP_CMP_GE"))] |}.
Definition futex2_sizes : xlat := {| ty := XT_INDEXED; data :=
  [(0, Some (bs "FUTEX2_SIZE_U8")); (1, Some (bs "FUTEX2_SIZE_U16")); (2, Some (bs "FUTEX2_SIZE_U32")); (3, Some (bs "FUTEX2_SIZE_U64"))] |}.
Definition futex2_flags : xlat := {| ty := XT_NORMAL; data := [(2^2, Some (bs "FUTEX2_NUMA")); (2^7, Some (bs "FUTEX2_PRIVATE"))] |}.

(** src/xlat.c:488-522 print_xlat_ex with a name *)
Definition print_xlat (s : BitsModel.xstyle_t) (val : N) (str : list N) : list N :=
  match s with
  | BitsModel.XABBREV => str
  | BitsModel.XRAW => pr_hex val
  | BitsModel.XVERBOSE => pr_hex val ++ comment (Some str)
  end.
(** what printxval returns, src/xlat.c:214-252: whether a name was found; never with raw constants *)
Definition found (s : BitsModel.xstyle_t) (x : xlat) (v : N) : bool :=
  match s, xlookup x v with BitsModel.XRAW, _ | _, None => false | _, Some _ => true end.
(** src/futex.c:113-146, the last argument of FUTEX_WAKE_OP *)
Definition shifted (s : BitsModel.xstyle_t) (x : xlat) (v : N) (by_ : list N) (unknown : list N) : list N :=
  printxvals_ex v None s FMT_X [x] ++ bs "<<" ++ by_ ++ comment (if found s x v then None else Some unknown).
Definition print_wake_op (s : BitsModel.xstyle_t) (val3 : N) : list N :=
  (if N.land (val3 / 2^28) 8 =? 0 then [] else print_xlat s 8 (bs "FUTEX_OP_OPARG_SHIFT") ++ bs "<<" ++ bs "28" ++ bs "|") ++
  shifted s futexwakeops (N.land (val3 / 2^28) 7) (bs "28") (bs "FUTEX_OP_???") ++ bs "|" ++
  pr_hex (N.land (val3 / 2^12) 0xfff) ++ bs "<<" ++ bs "12" ++ bs "|" ++
  shifted s futexwakecmps (N.land (val3 / 2^24) 15) (bs "24") (bs "FUTEX_OP_CMP_???") ++ bs "|" ++
  pr_hex (N.land val3 0xfff).

(** src/futex.c:29-182; [ts]: print_ts *)
Definition do_futex (s : BitsModel.xstyle_t) (ts : N -> list N) (a0 a1 a2 a3 a4 a5 : N) : list N :=
  let op := u32 a1 in let cmd := N.land op 127 in
  let val := u32 a2 in let val2 := u32 a3 in let val3 := u32 a5 in
  let bitset := printxvals_ex val3 None s FMT_X [futexbitset] in
  args ([TvalModel.printaddr a0; printxvals_ex op (Some (bs "FUTEX_???")) s FMT_X [futexops]] ++
   (if cmd =? 0 then [TvalModel.udec val; ts a3]
    else if (cmd =? 6) || (cmd =? 13) then [ts a3]
    else if cmd =? 9 then [TvalModel.udec val; ts a3; bitset]
    else if cmd =? 10 then [TvalModel.udec val; bitset]
    else if cmd =? 3 then [TvalModel.udec val; TvalModel.udec val2; TvalModel.printaddr a4]
    else if (cmd =? 4) || (cmd =? 12) then [TvalModel.udec val; TvalModel.udec val2; TvalModel.printaddr a4; TvalModel.udec val3]
    else if cmd =? 5 then [TvalModel.udec val; TvalModel.udec val2; TvalModel.printaddr a4; print_wake_op s val3]
    else if cmd =? 11 then [TvalModel.udec val; ts a3; TvalModel.printaddr a4]
    else if (cmd =? 2) || (cmd =? 1) then [TvalModel.udec val]
    else if (cmd =? 7) || (cmd =? 8) then []
    else [TvalModel.udec val; TvalModel.printaddr a3; TvalModel.printaddr a4; pr_hex val3])).

(** src/futex2.c:14-42; FUTEX2_SIZE_MASK is 3 *)
Definition print_futex2_flags (s : BitsModel.xstyle_t) (flags : N) : list N :=
  let names :=
    printxvals_ex (N.land flags 3) None BitsModel.XABBREV FMT_X [futex2_sizes] ++
    (let rest := N.ldiff flags 3 in
     if rest =? 0 then [] else bs "|" ++ printflags_ex rest None BitsModel.XABBREV FMT_X [futex2_flags]) in
  match s with
  | BitsModel.XABBREV => names
  | BitsModel.XRAW => pr_hex flags
  | BitsModel.XVERBOSE => pr_hex flags ++ bs " /* " ++ names ++ bs " */"
  end.
(** src/futex2.c:44-76 print_waiter.  print_waiter_data counts the elements printed before: that is the index of the element, which is put in
    front of its bytes.  FUTEX_WAITV_MAX is 128.  struct futex_waitv: val, uaddr, flags, __reserved. *)
Definition print_waiter (s : BitsModel.xstyle_t) (v : list N) : list N :=
  match v with
  | i :: b =>
      if 128 <=? i then bs "..."
      else bs "{val=" ++ pr_hex (ld b 0 8) ++ bs ", uaddr=" ++ TvalModel.printaddr (ld b 8 8) ++ bs ", flags=" ++ print_futex2_flags s (ld b 16 4) ++
           (if ld b 20 4 =? 0 then [] else bs ", __reserved=" ++ pr_hex (ld b 20 4)) ++ bs "}"
  | [] => []
  end.
(** src/futex2.c:78-87 *)
Definition waiter_args (e : env) (addr n : N) : ArrayModel.arr :=
  ArrayModel.mk_arr addr n 24 false
    (fun x => option_map (cons ((x - addr) / 24)) (ExtModel.umoven_or_printaddr (o e) (m e) x 24))
    (fun v => negb (128 <=? hd 0 v)) false false (abbrev e) (ExtModel.max_strlen (o e)).
Definition print_waiter_array (e : env) (addr n : N) : list N :=
  concat (map (tok_text (print_waiter (st e))) (snd (ArrayModel.print_array_ex (waiter_args e addr n)))).
(** src/futex2.c:89-190; [clock]: printxval(clocknames) *)
Definition futex_waitv (e : env) (ts clock : N -> list N) (a0 a1 a2 a3 a4 : N) : list N :=
  args [print_waiter_array e a0 (u32 a1); TvalModel.udec (u32 a1); pr_hex (u32 a2); ts a3; clock (u32 a4)].
Definition futex_wake (e : env) (a0 a1 a2 a3 : N) : list N :=
  args [TvalModel.printaddr a0; printxvals_ex a1 None (st e) FMT_X [futexbitset]; TvalModel.sdec (TvalModel.sx 4 (u32 a2)); print_futex2_flags (st e) (u32 a3)].
Definition futex_wait (e : env) (ts clock : N -> list N) (a0 a1 a2 a3 a4 a5 : N) : list N :=
  args [TvalModel.printaddr a0; TvalModel.udec a1; printxvals_ex a2 None (st e) FMT_X [futexbitset]; print_futex2_flags (st e) (u32 a3); ts a4; clock (u32 a5)].
Definition futex_requeue (e : env) (a0 a1 a2 a3 : N) : list N :=
  args [print_waiter_array e a0 2; pr_hex (u32 a1); TvalModel.sdec (TvalModel.sx 4 (u32 a2)); TvalModel.sdec (TvalModel.sx 4 (u32 a3))].
