(** A system call as the three ABIs of x86_64 make it, and how the kernel presents it to a tracer. *)
From Verif Require Import Base ErrnoModel ScnoModel.
Local Open Scope N_scope.

Inductive abi := X64 | I386 | X32.
Definition number_of (a : abi) : N := match a with X64 => 0 | I386 => 1 | X32 => 2 end.
(** the registers by their index in struct user_regs_struct, <sys/user.h>: rbp 4, rbx 5, r10 7, r9 8, r8 9, rax 10, rcx 11, rdx 12, rsi 13, rdi 14, orig_rax 15, cs 17; those of the arguments *)
Definition arg_regs (a : abi) : list nat := match a with I386 => [5; 11; 12; 13; 14; 4]%nat | _ => [14; 13; 12; 7; 9; 8]%nat end.
Definition regs_ok (k : kern) : Prop := forall j, cpu k j < 2^64.
(** the tracee is stopped on the entry to call [n] of ABI [a].  32-bit code makes i386 calls, 64-bit code any (i386 ones with int 0x80) *)
Definition entry_of (k : kern) (a : abi) (n : N) : Prop :=
  regs_ok k /\ (iop (k_info k) = ENTRY \/ iop (k_info k) = SECCOMP) /\
  i386 (k_info k) = match a with I386 => true | _ => false end /\
  (view32 k = true <-> cpu k 17%nat = 0x23) /\
  map (args (k_info k)) [0; 1; 2; 3; 4; 5]%nat = map (cpu k) (arg_regs a) /\
  nr (k_info k) = cpu k 15%nat /\
  match a with
  | X64 => view32 k = false /\ cpu k 15%nat = n /\ (N.testbit n 30 = false \/ n = 2^64 - 1)
  | X32 => view32 k = false /\ cpu k 15%nat = n + 2^30 /\ n < 2^30
  | I386 => cpu k 15%nat = n /\ n < 2^31
  end.
(** the arguments the kernel takes *)
Definition taken (k : kern) (a : abi) (cst : bool) : list N :=
  map (fun j => match a with I386 => cpu k j mod 2^32 | _ => if cst then cpu k j mod 2^32 else cpu k j end) (arg_regs a).
(** the tracee is stopped on the exit of a call that left this in RAX: kernel, ptrace_get_syscall_info_exit, syscall_get_error *)
Definition exit_of (k : kern) (rax : N) : Prop :=
  regs_ok k /\ iop (k_info k) = EXIT /\ cpu k 10%nat = rax /\ (view32 k = true <-> cpu k 17%nat = 0x23) /\ i386 (k_info k) = view32 k /\
  let e := if view32 k then sext32 rax else rax in
  is_error (k_info k) = (2^64 - 4095 <=? e) /\ i_rval (k_info k) = (if 2^64 - 4095 <=? e then e else rax).
(** failure with an error or success with a value, which [check] = false demands *)
Definition result_of (compat check : bool) (rax : N) : result :=
  let w := if compat then 32 else 64 in
  let v := rax mod 2^w in
  if check && (2^w - 4095 <=? v) then {| rval := 2^64 - 1; err := 2^w - v |} else {| rval := v; err := 0 |}.
