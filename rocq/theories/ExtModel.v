(** Model of the printers of structures whose size the caller states: openat2 (src/open.c), clone3
    (src/clone.c), sched_setattr and sched_getattr (src/sched.c), mount_setattr (src/mount_setattr.c),
    setxattrat (src/xattr.c), landlock_create_ruleset (src/landlock.c), statmount and listmount (src/statmount.c,
    src/listmount.c).  A member is the number that was read for it and the way it is printed; the
    texts of numbers, flags, descriptors and signals are not part of this model.  malloc does not fail. *)
From Verif Require Import Base QuoteModel InfoModel.
Local Open Scope N_scope.

(** the memory of the tracee: the byte at an address, if it can be read *)
Definition memory := N -> option N.
(** umoven (src/ucopy.c; C32-C35) *)
Fixpoint umoven (m : memory) (a : N) (n : nat) : option (list N) :=
  match n with
  | O => Some []
  | S n => match m (u64 a), umoven m (a + 1) n with Some b, Some l => Some (b :: l) | _, _ => None end
  end.
(** what else the printers depend on: verbose(tcp), exiting(tcp) && syserror(tcp), max_strlen, get_pagesize() *)
Record opts := { verbose : bool; failed : bool; max_strlen : N; pagesize : N }.
(** umoven_or_printaddr, tfetch_mem64, src/util.c:1732-1757: None: the address is printed *)
Definition umoven_or_printaddr (o : opts) (m : memory) (a : N) (n : nat) : option (list N) :=
  if (a =? 0) || negb (verbose o) || failed o then None else umoven m a n.

(** how a member is printed *)
Inductive kind := U | D | X | Mode | Addr64 | Flags (table : list N) | Val (table : list N) | Fd | Signal | Tls | Tids (n : N) | Value (size : N).
Inductive item :=
| Member (name : list N) (k : kind) (v : N)
| Bytes (from to : N) (text : list N) (more : bool)   (* /* bytes from..to */ text, then "..." *)
| Unavailable                                         (* ??? *)
| More.                                               (* ... *)
Inductive out := Address (a : N) | Struct (l : list item).

(** a structure: the bytes of its members, those that were not read being zero *)
Definition filled (size : nat) (b : list N) : list N := firstn size (b ++ repeat 0 size).

(** print_nonzero_bytes, src/util.c:1494-1538; [res]: string_quote of QUOTE_FORCE_HEX *)
Definition print_nonzero_bytes (o : opts) (m : memory) (start_addr start_offs total_len : N) : res (list item) :=
  if total_len <=? start_offs then Ok []
  else
    let len := total_len - start_offs in
    let size := N.min len (max_strlen o) in
    match umoven m (start_addr + start_offs) (N.to_nat len) with
    | None => Ok [Unavailable]
    | Some str =>
        if forallb (N.eqb 0) str then Ok []
        else
          rlet (t, _) := string_quote str (N.to_nat size)
             {| q0term := false; omit_quotes := false; omit0 := false; expect0 := false; comment := false; xstyle := HEXSTR_ALL |} None in
          Ok [Bytes start_offs (total_len - 1) t (size <? len)]
    end.
Definition tail (o : opts) (m : memory) (addr known size : N) : res (list item) :=
  if known <? size then print_nonzero_bytes o m addr known (N.min size (pagesize o)) else Ok [].
Definition when (b : bool) (l : list item) : list item := if b then l else [].
Definition test (v mask : N) : bool := negb (N.land v mask =? 0).

(** print_open_how, src/open.c:138-167; __O_TMPFILE of the architectures that have no value of their own *)
Definition print_open_how (o : opts) (m : memory) (addr size : N) : res out :=
  if size <? 24 then Ok (Address addr)
  else match umoven_or_printaddr o m addr (N.to_nat (N.min size 24)) with
       | None => Ok (Address addr)
       | Some how =>
           let flags := ld how 0 8 in let mode := ld how 8 8 in
           rlet t := tail o m addr 24 size in
           Ok (Struct (Member (bs "flags") (Flags (bs "open_mode_flags")) flags ::
                       when (test flags (64 + 4194304) || negb (mode =? 0)) [Member (bs "mode") Mode mode] ++
                       Member (bs "resolve") (Flags (bs "open_resolve_flags")) (ld how 16 8) :: t))
       end.

(** print_mount_attr, src/mount_setattr.c:15-54 *)
Definition print_mount_attr (o : opts) (m : memory) (addr size : N) : res out :=
  if size <? 32 then Ok (Address addr)
  else match umoven_or_printaddr o m addr (N.to_nat (N.min 32 size)) with
       | None => Ok (Address addr)
       | Some a =>
           let set := ld a 0 8 in let clr := ld a 8 8 in let fd := ld a 24 8 in
           rlet t := tail o m addr 32 size in
           Ok (Struct (Member (bs "attr_set") (Flags (bs "mount_attr_attr")) set :: Member (bs "attr_clr") (Flags (bs "mount_attr_attr")) clr ::
                       Member (bs "propagation") (Val (bs "mount_attr_propagation")) (ld a 16 8) ::
                       Member (bs "userns_fd") (if (2^31 - 1 <? fd) || negb (test (N.lor set clr) 0x100000) then U else Fd) fd :: t))
       end.

(** umove_xattr_args_or_printaddr and print_xattr_args on entering, src/xattr.c:212-258, 260-280 (setxattrat) *)
Definition print_xattr_args (o : opts) (m : memory) (addr size : N) : res out :=
  if size <? 16 then Ok (Address addr)
  else match umoven_or_printaddr o m addr (N.to_nat (N.min size 16)) with
       | None => Ok (Address addr)
       | Some a =>
           rlet t := tail o m addr 16 size in
           Ok (Struct (Member (bs "value") (Value (ld a 8 4)) (ld a 0 8) :: Member (bs "size") U (ld a 8 4) ::
                       Member (bs "flags") (Flags (bs "xattrflags")) (ld a 12 4) :: t))
       end.

(** print_landlock_ruleset_attr, src/landlock.c:19-59 *)
Definition print_landlock (o : opts) (m : memory) (addr size : N) : res out :=
  if size <? 8 then Ok (Address addr)
  else match umoven_or_printaddr o m addr (N.to_nat (N.min size 24)) with
       | None => Ok (Address addr)
       | Some b =>
           let a := filled 24 b in
           Ok (Struct (Member (bs "handled_access_fs") (Flags (bs "landlock_ruleset_access_fs")) (ld a 0 8) ::
                       when (8 <? size) [Member (bs "handled_access_net") (Flags (bs "landlock_ruleset_access_net")) (ld a 8 8)] ++
                       when (16 <? size) [Member (bs "scoped") (Flags (bs "landlock_scope_flags")) (ld a 16 8)] ++
                       when (24 <? size) [More]))
       end.

(** print_mnt_id_req, src/statmount.c:24-72 and src/listmount.c:13-62, which differ in the way mnt_id and param are printed *)
Definition print_mnt_id_req (listing : bool) (o : opts) (m : memory) (addr : N) : res out :=
  match umoven_or_printaddr o m addr 4 with
  | None => Ok (Address addr)
  | Some s =>
      let size := ld s 0 4 in
      let first := Member (bs "size") U size in
      if size <? 24 then Ok (Struct [first])
      else match umoven m addr (N.to_nat (N.min 32 size)) with
           | None => Ok (Struct [first; Unavailable])
           | Some b =>
               let r := filled 32 b in
               let size := ld r 0 4 in
               rlet t := tail o m addr 32 size in
               Ok (Struct (first :: when (negb (ld r 4 4 =? 0)) [Member (bs "spare") X (ld r 4 4)] ++
                           Member (bs "mnt_id") (if listing then Val (bs "listmount_mnt_id") else X) (ld r 8 8) ::
                           Member (bs "param") (if listing then X else Flags (bs "statmount_mask")) (ld r 16 8) ::
                           when (32 <=? size) [Member (bs "mnt_ns_id") X (ld r 24 8)] ++ t))
           end
  end.

(** print_sched_attr, src/sched.c:110-184, from the fields on: [a] the structure, [size] as the local variable, [total] what line 178 compares with it *)
Definition sched_fields (is_set : bool) (a : list N) (size total : N) : list item :=
  let flags := ld a 8 8 in
  Member (bs "size") U (ld a 0 4) ::
  (if size <? 48 then []
   else when (negb is_set || (2^31 <=? ld a 4 4) || negb (test flags (8 + 16))) [Member (bs "sched_policy") (Val (bs "schedulers")) (ld a 4 4)] ++
        Member (bs "sched_flags") (Flags (bs "sched_flags")) flags ::
        when (negb is_set || negb (test flags 16))
          [Member (bs "sched_nice") D (ld a 16 4); Member (bs "sched_priority") U (ld a 20 4); Member (bs "sched_runtime") U (ld a 24 8);
           Member (bs "sched_deadline") U (ld a 32 8); Member (bs "sched_period") U (ld a 40 8)] ++
        when (negb (size <? 56)) [Member (bs "sched_util_min") U (ld a 48 4); Member (bs "sched_util_max") U (ld a 52 4)]) ++
  when (size <? total) [More].
(** print_sched_attr called from sched_getattr (usize > 0), src/sched.c:118-124 *)
Definition print_sched_get (o : opts) (m : memory) (addr usize : N) : out :=
  match umoven_or_printaddr o m addr (N.to_nat (N.min usize 56)) with
  | None => Address addr
  | Some b => let a := filled 56 b in Struct (sched_fields false a (ld a 0 4) (ld a 0 4))
  end.
(** print_sched_attr called from sched_setattr, src/sched.c:125-140 *)
Definition print_sched_set (o : opts) (m : memory) (addr : N) : out :=
  match umoven_or_printaddr o m addr 4 with
  | None => Address addr
  | Some s =>
      let usize := if ld s 0 4 =? 0 then 48 else ld s 0 4 in
      let size := N.min usize 56 in
      if 48 <=? size
      then match umoven_or_printaddr o m addr (N.to_nat size) with
           | None => Address addr
           | Some b => Struct (sched_fields true (filled 56 b) size usize)
           end
      else Struct (sched_fields true (filled 56 s) size usize)
  end.

(** clone3 on entering, src/clone.c:241-345; the second result: whether the size follows at once (RVAL_DECODED)
    and not on exiting; [nsflags]: lines 253-256 *)
Definition clone3_enter (o : opts) (nsflags : N) (m : memory) (addr size : N) : res (out * bool) :=
  let fetch := N.min size 88 in
  if fetch <? 64 then Ok (Address addr, true)
  else match umoven_or_printaddr o m addr (N.to_nat fetch) with
       | None => Ok (Address addr, true)
       | Some b =>
           let a := filled 88 b in
           let flags := ld a 0 8 in
           let set_tid := ld a 64 8 in let n := ld a 72 8 in let cgroup := ld a 80 8 in
           rlet t := tail o m addr fetch size in
           Ok (Struct (Member (bs "flags") (Flags (bs "clone_flags")) flags ::
                 when (test flags 0x1000) [Member (bs "pidfd") Addr64 (ld a 8 8)] ++
                 when (test flags (0x1000000 + 0x200000)) [Member (bs "child_tid") Addr64 (ld a 16 8)] ++
                 when (test flags 0x100000) [Member (bs "parent_tid") Addr64 (ld a 24 8)] ++
                 Member (bs "exit_signal") (if ld a 32 8 <? 2^31 - 1 then Signal else U) (ld a 32 8) ::
                 Member (bs "stack") Addr64 (ld a 40 8) :: Member (bs "stack_size") X (ld a 48 8) ::
                 when (test flags 0x80000) [Member (bs "tls") Tls (ld a 56 8)] ++
                 when (negb (set_tid =? 0) || negb (n =? 0))
                   [Member (bs "set_tid") (if (set_tid =? 0) || (n =? 0) || (32 <? n) then Addr64 else Tids n) set_tid;
                    Member (bs "set_tid_size") U n] ++
                 when ((80 <? fetch) && (negb (cgroup =? 0) || test flags 0x200000000)) [Member (bs "cgroup") U cgroup] ++ t),
               negb (test flags (N.lor (0x1000 + 0x100000) nsflags) || (fetch <? size)))
       end.
(** clone3 on exiting, src/clone.c:347-402: what follows " => " (None: nothing); the number behind a pointer is read by printnum_int
    (None: the address is printed).  The tail is printed without the comparison of entering. *)
Inductive after_item := Behind (name : list N) (k : kind) (a : N) (v : option N) | Rest (i : item).
Inductive after := Nothing | AfterAddr (a : N) | AfterStruct (l : list after_item).
Definition printnum_int (o : opts) (m : memory) (a : N) : option N := match umoven_or_printaddr o m a 4 with Some b => Some (ld b 0 4) | None => None end.
Definition clone3_exit (o : opts) (m : memory) (addr size : N) : res after :=
  if failed o then Ok Nothing
  else
    let fetch := N.min size 88 in
    match umoven m addr (N.to_nat fetch) with
    | None => Ok (AfterAddr addr)
    | Some b =>
        let a := filled 88 b in
        let flags := ld a 0 8 in
        rlet t := tail o m addr fetch size in
        let l := (if test flags 0x1000 then [Behind (bs "pidfd") Fd (ld a 8 8) (printnum_int o m (ld a 8 8))] else []) ++
                 (if test flags 0x100000 then [Behind (bs "parent_tid") U (ld a 24 8) (printnum_int o m (ld a 24 8))] else []) ++
                 map Rest t in
        Ok (match l with [] => Nothing | _ => AfterStruct l end)
    end.
