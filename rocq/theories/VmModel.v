(** How the memory mapping calls are shown: src/mem.c, x86.
    printflags and printxvals are those of XlatModel (C36, C37), print_array that of NumaModel (C49).  The text of a descriptor (printfd, C69) is a parameter. *)
From Verif Require Import Base Printf InfoModel XlatModel.
From Verif Require BitsModel ExtModel TvalModel NumaModel.
Local Open Scope N_scope.

(** src/xlat/mmap_flags.in, as it is on x86 *)
Definition mmap_flags : xlat := {| ty := XT_NORMAL; data :=
  [(1, Some (bs "MAP_SHARED")); (2, Some (bs "MAP_PRIVATE")); (3, Some (bs "MAP_SHARED_VALIDATE")); (8, Some (bs "MAP_DROPPABLE"));
   (0x10, Some (bs "MAP_FIXED")); (0x20, Some (bs "MAP_ANONYMOUS")); (0x40, Some (bs "MAP_32BIT")); (0x80, Some (bs "MAP_ABOVE4G"));
   (0x4000, Some (bs "MAP_NORESERVE")); (0x8000, Some (bs "MAP_POPULATE")); (0x10000, Some (bs "MAP_NONBLOCK")); (0x100, Some (bs "MAP_GROWSDOWN"));
   (0x800, Some (bs "MAP_DENYWRITE")); (0x1000, Some (bs "MAP_EXECUTABLE")); (0, Some (bs "MAP_FILE")); (0x2000, Some (bs "MAP_LOCKED"));
   (0x20000, Some (bs "MAP_STACK")); (0x40000, Some (bs "MAP_HUGETLB")); (0x80000, Some (bs "MAP_SYNC")); (0x4000000, Some (bs "MAP_UNINITIALIZED"));
   (0x100000, Some (bs "MAP_FIXED_NOREPLACE"))] |}.
(** src/xlat/mmap_prot.in, as it is on x86 *)
Definition mmap_prot : xlat := {| ty := XT_NORMAL; data :=
  [(0, Some (bs "PROT_NONE")); (1, Some (bs "PROT_READ")); (2, Some (bs "PROT_WRITE")); (4, Some (bs "PROT_EXEC")); (8, Some (bs "PROT_SEM"));
   (0x1000000, Some (bs "PROT_GROWSDOWN")); (0x2000000, Some (bs "PROT_GROWSUP"))] |}.
(** src/xlat/mremap_flags.in *)
Definition mremap_flags : xlat := {| ty := XT_NORMAL; data :=
  [(1, Some (bs "MREMAP_MAYMOVE")); (2, Some (bs "MREMAP_FIXED")); (4, Some (bs "MREMAP_DONTUNMAP"))] |}.

(** print_mmap_flags, src/mem.c:55-101; MAP_TYPE is 15.  The type of mask is unsigned int, so that `flags &= ~mask' also clears the upper half. *)
Definition print_mmap_flags (st : BitsModel.xstyle_t) (flags : N) : list N :=
  let type := N.land flags 15 in
  let f := N.ldiff flags 15 in
  let mask := u32 (63 * 2 ^ 26) in
  let hugetlb_value := u32 (N.land f mask) in
  let f := N.land f (2 ^ 32 - 1 - mask) in
  let names :=
    printxvals_ex type (Some (bs "MAP_???")) BitsModel.XABBREV FMT_X [mmap_flags] ++
    (if f =? 0 then [] else bs "|" ++ printflags_ex f None BitsModel.XABBREV FMT_X [mmap_flags]) ++
    (if hugetlb_value =? 0 then [] else bs "|" ++ TvalModel.udec (hugetlb_value / 2 ^ 26) ++ bs "<<" ++ bs "MAP_HUGE_SHIFT") in
  match st with
  | BitsModel.XRAW => pr_hex flags
  | BitsModel.XVERBOSE => pr_hex flags ++ bs " /* " ++ names ++ bs " */"
  | BitsModel.XABBREV => names
  end.
(** printflags64(mmap_prot, prot, "PROT_???") *)
Definition print_prot (st : BitsModel.xstyle_t) (prot : N) : list N := printflags_ex prot (Some (bs "PROT_???")) st FMT_X [mmap_prot].
(** (int) of an argument *)
Definition int_of (a : N) : Z := TvalModel.sx 4 (u32 a).

(** tprint_arg_next between the arguments *)
Definition args := NumaModel.args.
(** print_mmap, src/mem.c:103-136; [fd]: the text of a descriptor *)
Definition print_mmap (st : BitsModel.xstyle_t) (fd : Z -> list N) (a : list N) (offset : N) : list N :=
  args [TvalModel.printaddr (nth 0 a 0); TvalModel.udec (nth 1 a 0); print_prot st (nth 2 a 0); print_mmap_flags st (nth 3 a 0);
        fd (int_of (nth 4 a 0)); pr_hex offset].
(** src/mem.c:188-199 *)
Definition mmap (st : BitsModel.xstyle_t) (fd : Z -> list N) (a : list N) : list N := print_mmap st fd a (nth 5 a 0).
(** src/mem.c:202-211 *)
Definition mmap_pgoff (st : BitsModel.xstyle_t) (fd : Z -> list N) (pagesize : N) (a : list N) : list N := print_mmap st fd a (u64 (nth 5 a 0 * pagesize)).
(** src/mem.c:214-222 *)
Definition mmap_4koff (st : BitsModel.xstyle_t) (fd : Z -> list N) (a : list N) : list N := print_mmap st fd a (u64 (nth 5 a 0 * 2 ^ 12)).
(** fetch_indirect_syscall_args, src/fetch_indirect_syscall_args.c:15-37 *)
Definition indirect (m : ExtModel.memory) (ws : nat) (addr : N) : option (list N) :=
  match ExtModel.umoven m addr (ws * 6) with
  | None => None
  | Some b => Some (map (fun i => ld b (i * ws) ws) (seq 0 6))
  end.
(** src/mem.c:147-159 *)
Definition old_mmap (st : BitsModel.xstyle_t) (fd : Z -> list N) (m : ExtModel.memory) (ws : nat) (a0 : N) : list N :=
  match indirect m ws a0 with Some a => print_mmap st fd a (nth 5 a 0) | None => TvalModel.printaddr a0 end.

(** do_mprotect, src/mem.c:237-261 *)
Definition do_mprotect (st : BitsModel.xstyle_t) (has_pkey : bool) (a : list N) : list N :=
  args ([TvalModel.printaddr (nth 0 a 0); TvalModel.udec (nth 1 a 0); print_prot st (nth 2 a 0)] ++
        if has_pkey then [TvalModel.sdec (int_of (nth 3 a 0))] else []).
(** src/mem.c:276-300 *)
Definition mremap (st : BitsModel.xstyle_t) (a : list N) : list N :=
  let flags := nth 3 a 0 in
  args ([TvalModel.printaddr (nth 0 a 0); TvalModel.udec (nth 1 a 0); TvalModel.udec (nth 2 a 0);
         printflags_ex flags (Some (bs "MREMAP_???")) st FMT_X [mremap_flags]] ++
        if negb (N.land flags (N.lor 2 4) =? 0) && negb (N.land flags 1 =? 0) then [TvalModel.printaddr (nth 4 a 0)] else []).
(** src/mem.c:226-235 *)
Definition munmap (a : list N) : list N := args [TvalModel.printaddr (nth 0 a 0); TvalModel.udec (nth 1 a 0)].
(** src/mem.c:478-505 *)
Definition remap_file_pages (st : BitsModel.xstyle_t) (a : list N) : list N :=
  args [TvalModel.printaddr (nth 0 a 0); TvalModel.udec (nth 1 a 0); print_prot st (nth 2 a 0); TvalModel.udec (nth 3 a 0); print_mmap_flags st (nth 4 a 0)].

(** src/mem.c:442-449 *)
Definition print_mincore_entry (b : list N) : list N := TvalModel.udec (N.land (nth 0 b 0) 1).
(** src/mem.c:451-476, the texts on entering and on exiting *)
Definition mincore (e : NumaModel.env) (a : list N) : list N :=
  let page_size := ExtModel.pagesize (NumaModel.o e) in
  let page_mask := page_size - 1 in
  let len := nth 1 a 0 in
  let nmemb := len / page_size + (if N.land len page_mask =? 0 then 0 else 1) in
  (TvalModel.printaddr (nth 0 a 0) ++ bs ", " ++ TvalModel.udec len ++ bs ", ") ++
  NumaModel.print_array e print_mincore_entry (nth 2 a 0) nmemb 1.
