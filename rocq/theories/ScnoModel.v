(** Model of how the call, its arguments and its result are obtained at a stop, on x86_64:
    src/syscall.c:1080-1098, 1192-1226, 1291-1342, 1384-1412, 1431-1511, 1524-1566, src/linux/x86_64/arch_get_personality.c, get_scno.c, get_syscall_args.c, get_error.c, getregs_old.c, arch_regs.c, shuffle_scno.c.
    Not modelled: names and flags of calls ([cst]: COMPAT_SYSCALL_TYPES of the table entry), messages, mpers, stack pointer. *)
From Verif Require Import Base ErrnoModel.
Local Open Scope N_scope.

(** ** What ptrace reports *)
Inductive op := NONE | ENTRY | EXIT | SECCOMP.
(** struct ptrace_syscall_info; [i386]: arch == AUDIT_ARCH_I386 *)
Record info := { iop : op; i386 : bool; i_ip : N; nr : N; args : nat -> N; i_rval : N; is_error : bool }.
(** user_regs_struct: indices as in src/linux/x86_64/arch_regs.h *)
Definition RBP := 4%nat. Definition RBX := 5%nat. Definition R10 := 7%nat. Definition R9 := 8%nat. Definition R8 := 9%nat.
Definition RAX := 10%nat. Definition RCX := 11%nat. Definition RDX := 12%nat. Definition RSI := 13%nat. Definition RDI := 14%nat.
Definition ORIG_RAX := 15%nat. Definition RIP := 16%nat. Definition CS := 17%nat. Definition RSP := 19%nat.
(** the tracee as the kernel has it: [cpu] its registers by these indices, [view32]: PTRACE_GETREGSET gives the 17 registers of i386 *)
Record kern := { k_info : info; cpu : nat -> N; view32 : bool }.
(** struct i386_user_regs_struct, arch_regs.c:16-34: which register each of its 17 words is *)
Definition i386_field (k : nat) : nat := nth k [RBX; RCX; RDX; RSI; RDI; RBP; RAX; 23; 24; 25; 26; ORIG_RAX; RIP; CS; 18; RSP; 20]%nat 0%nat.
(** the union x86_regs_union as an array of 32-bit words *)
Definition words := nat -> N.
Definition layout64 (cpu : nat -> N) : words := fun i => if Nat.even i then cpu (Nat.div2 i) mod 2^32 else cpu (Nat.div2 i) / 2^32.
Definition layout32 (cpu : nat -> N) : words := fun i => cpu (i386_field i) mod 2^32.
Definition r64 (w : words) (j : nat) : N := w (2 * j)%nat + 2^32 * w (2 * j + 1)%nat.
Definition r32 (w : words) (k : nat) : N := w k.

(** ** State: ptrace_sci ([None]: op == 0xff), get_regs_error, the union, x86_io.iov_len == sizeof(i386_regs), use_getregs_old, current_personality *)
Record st := { sci : option info; rerr : Z; buf : words; is32 : bool; old : Z; pers : N }.
Definition set_sci (s : st) x := {| sci := x; rerr := rerr s; buf := buf s; is32 := is32 s; old := old s; pers := pers s |}.
Definition set_rerr (s : st) x := {| sci := sci s; rerr := x; buf := buf s; is32 := is32 s; old := old s; pers := pers s |}.
Definition set_buf (s : st) x y := {| sci := sci s; rerr := rerr s; buf := x; is32 := y; old := old s; pers := pers s |}.
Definition set_old (s : st) x := {| sci := sci s; rerr := rerr s; buf := buf s; is32 := is32 s; old := x; pers := pers s |}.
Definition update_personality (s : st) x := {| sci := sci s; rerr := rerr s; buf := buf s; is32 := is32 s; old := old s; pers := x |}.
(** clear_regs, syscall.c:1195-1200 *)
Definition clear_regs (s : st) : st := set_rerr (set_sci s None) (-1).
(** how the ptrace requests of a query fare: PTRACE_GET_SYSCALL_INFO, PTRACE_GETREGSET ([Some true]: EPERM or ESRCH, [Some false]: other errors), PTRACE_GETREGS *)
Record luck := { sci_ok : bool; getregset : option bool; getregs : bool }.

(** getregs_old.c:16-54 *)
Definition wr (w : words) (k : nat) (v : N) : words := fun i => if Nat.eqb i k then v mod 2^32 else w i.
Definition narrow (w : words) : words :=
  let w := wr w 0 (r64 w RBX) in
  let w := wr w 1 (r64 w RCX) in
  let w := wr w 2 (r64 w RDX) in
  let w := wr w 3 (r64 w RSI) in
  let w := wr w 4 (r64 w RDI) in
  let w := wr w 5 (r64 w RBP) in
  let w := wr w 6 (r64 w RAX) in
  let w := wr w 11 (r64 w ORIG_RAX) in
  let w := wr w 12 (r64 w RIP) in
  wr w 15 (r64 w RSP).
Definition getregs_old (k : kern) (l : luck) (s : st) : st * Z :=
  if negb (getregs l) then (s, -1)%Z else
  let w := layout64 (cpu k) in
  if r64 w CS =? 0x23 then (set_buf s (narrow w) true, 0%Z) else (set_buf s w false, 0%Z).
(** ptrace_getregset, syscall.c:1124-1141 *)
Definition ptrace_getregset (k : kern) (l : luck) (s : st) : st * Z :=
  match getregset l with
  | Some _ => (s, (-1)%Z)
  | None => if view32 k then (set_buf s (layout32 (cpu k)) true, 0%Z) else (set_buf s (layout64 (cpu k)) false, 0%Z)
  end.
(** get_regs, syscall.c:1202-1226 *)
Definition get_regs (k : kern) (l : luck) (s : st) : st * Z :=
  if negb (rerr s =? -1)%Z then (s, rerr s) else
  let fin '(s, r) := (set_rerr s r, r) in
  if (old s <? 0)%Z then fin (ptrace_getregset k l s) else
  if (old s =? 0)%Z then
    let '(s, r) := ptrace_getregset k l s in
    let s := set_rerr s r in
    if (0 <=? r)%Z then (set_old s (-1), r) else
    if match getregset l with Some true => true | _ => false end then (s, r) else
    fin (getregs_old k l (set_old s 1))
  else fin (getregs_old k l s).

(** get_personality_from_syscall_info; None: -1 *)
Definition X32_BIT : N := 0x40000000.
Definition info_pers (i : info) : option N :=
  match iop i with
  | ENTRY | SECCOMP =>
      let p := if i386 i then 1 else 0 in
      Some (if (p =? 0) && negb (N.land (nr i) X32_BIT =? 0) then (if negb (nr i =? 2^64 - 1) then 2 else p) else p)
  | _ => None
  end.
(** strace_get_syscall_info, syscall.c:1291-1331 *)
Definition strace_get_syscall_info (k : kern) (l : luck) (s : st) : st * bool :=
  match sci s with
  | Some _ => (s, true)
  | None =>
      if negb (sci_ok l) then (set_rerr s (-2), false) else
      let s := set_sci s (Some (k_info k)) in
      (match info_pers (k_info k) with Some p => update_personality s p | None => s end, true)
  end.
(** syscall.c:1085-1098; [sup]: ptrace_get_syscall_info_supported *)
Definition is_entry (sup : bool) (s : st) : option info :=
  if sup then match sci s with Some i => match iop i with ENTRY | SECCOMP => Some i | _ => None end | None => None end else None.
Definition is_exit (sup : bool) (s : st) : option info :=
  if sup then match sci s with Some i => match iop i with EXIT => Some i | _ => None end | None => None end else None.
Definition isSome {A} (o : option A) : bool := match o with Some _ => true | None => false end.
(** get_instruction_pointer, syscall.c:1333-1357 *)
Definition get_ip (sup : bool) (k : kern) (l : luck) (s : st) : st * option N :=
  if (rerr s <? -1)%Z then (s, None) else
  if sup then
    let '(s, b) := strace_get_syscall_info k l s in
    (s, if b then match sci s with Some i => Some (i_ip i) | None => None end else None)
  else
    let '(s, r) := get_regs k l s in
    (s, if (r <? 0)%Z then None else Some (if is32 s then r32 (buf s) 12 else r64 (buf s) RIP)).
(** get_syscall_regs, syscall.c:1387-1412 *)
Definition get_syscall_regs (sup entering : bool) (k : kern) (l : luck) (s : st) : st * Z :=
  if negb (rerr s =? -1)%Z then (s, rerr s) else
  if sup then
    let '(s, b) := strace_get_syscall_info k l s in
    if negb b then (s, rerr s) else
    if (entering && isSome (is_entry sup s)) || (negb entering && isSome (is_exit sup s)) then (s, 0%Z) else get_regs k l s
  else get_regs k l s.
(** arch_get_scno, get_scno.c:17-71 *)
Definition arch_get_scno (s : st) : st * N :=
  let '(scno, p) :=
    if is32 s then (r32 (buf s) 11, 1)
    else let n := r64 (buf s) ORIG_RAX in (n, if negb (N.land n X32_BIT =? 0) then (if negb (n =? 2^64 - 1) then 2 else 0) else 0) in
  (update_personality s p, scno).
(** shuffle_scno.c *)
Definition shuffle_scno (s : st) (n : N) : N := if pers s =? 2 then N.lxor n X32_BIT else n.
(** arch_get_syscall_args, get_syscall_args.c:10-54 *)
Definition arch_get_syscall_args (cst : bool) (s : st) : list N :=
  if negb (is32 s) then map (fun j => let v := r64 (buf s) j in if cst then v mod 2^32 else v) [RDI; RSI; RDX; R10; R8; R9]
  else map (r32 (buf s)) [0; 1; 2; 3; 4; 5]%nat.
(** get_scno and then get_syscall_args, syscall.c:1431-1511, as in syscall_entering_decode: the personality, the number in its table, the arguments *)
Definition get_call (sup entering : bool) (cst : N -> N -> bool) (k : kern) (l : luck) (s : st) : st * option (N * N * list N) :=
  let '(s, r) := get_syscall_regs sup entering k l s in
  if (r <? 0)%Z then (s, None) else
  let '(s, n) := match is_entry sup s with Some i => (s, nr i) | None => arch_get_scno s end in
  let n := shuffle_scno s n in
  let c := cst (pers s) n in
  let a := match is_entry sup s with
           | Some i => map (fun j => let v := args i j in if c then v mod 2^32 else v) [0; 1; 2; 3; 4; 5]%nat
           | None => arch_get_syscall_args c s
           end in
  (s, Some (pers s, n, a)).
(** get_syscall_result and get_error, syscall.c:1524-1566 *)
Definition get_syscall_result (sup entering check : bool) (k : kern) (l : luck) (s : st) : st * option result :=
  let '(s, r) := get_syscall_regs sup entering k l s in
  if (r <? 0)%Z then (s, None) else
  (s, Some (match is_exit sup s with
            | Some i => if is_error i then {| rval := 2^64 - 1; err := u64 (2^64 - i_rval i) |} else {| rval := i_rval i; err := 0 |}
            | None => get_x86_64 (is32 s) check (if is32 s then r32 (buf s) 6 else r64 (buf s) RAX)
            end)).
(** the queries made at a stop: get_call when entering, get_syscall_result when exiting *)
Inductive query := Ip | Call | Result (check : bool).
Definition ask (sup : bool) (cst : N -> N -> bool) (k : kern) (s : st) (q : query * luck) : st :=
  match fst q with
  | Ip => fst (get_ip sup k (snd q) s)
  | Call => fst (get_call sup true cst k (snd q) s)
  | Result c => fst (get_syscall_result sup false c k (snd q) s)
  end.
(** a stop: clear_regs (strace.c:3913), then queries *)
Definition stop (sup : bool) (cst : N -> N -> bool) (s : st) (x : kern * list (query * luck)) : st := fold_left (ask sup cst (fst x)) (snd x) (clear_regs s).
