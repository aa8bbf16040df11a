(** Model of src/filter_seccomp.c: the two BPF program generators, their
    selection, and a machine for classic BPF (kernel side). *)
From Verif Require Import Base.
Local Open Scope N_scope.

(** struct sock_filter of linux/filter.h; [op] is the decoded instruction code.
    Only the codes strace emits are represented. *)
Inductive opcode := LD_ABS | LD_IMM | JEQ | JGE | JSET | JA | AND_K | LSH_X | RSH_K | TAX | TXA | RET.
Record insn := { op : opcode; jt : N; jf : N; k : N }.

(** BPF_CLASS(code) == BPF_JMP *)
Definition is_jmp (o : opcode) : bool :=
  match o with JEQ | JGE | JSET | JA => true | _ => false end.

(** SECCOMP_RET_TRACE, SECCOMP_RET_ALLOW of linux/seccomp.h *)
Definition RET_TRACE : N := 2146435072. (* 0x7ff00000 *)
Definition RET_ALLOW : N := 2147418112. (* 0x7fff0000 *)
(** offsetof(struct seccomp_data, nr) and arch *)
Definition OFF_NR : N := 0.
Definition OFF_ARCH : N := 4.

(** The kernel's classic BPF machine (kernel, not strace).  The program counter is
    represented by the suffix of the program still ahead; [None] = the program is
    malformed (falls off its end, bad load, oversized shift) or out of fuel. *)
Fixpoint exec (fuel : nat) (l : list insn) (a x nr arch : N) : option N :=
  match fuel with
  | O => None
  | S f =>
      match l with
      | [] => None
      | i :: r =>
          match op i with
          | RET => Some (k i)
          | LD_ABS => if k i =? OFF_NR then exec f r nr x nr arch
                      else if k i =? OFF_ARCH then exec f r arch x nr arch else None
          | LD_IMM => exec f r (k i) x nr arch
          | JA => exec f (skipn (N.to_nat (k i)) r) a x nr arch
          | JEQ => exec f (skipn (N.to_nat (if a =? k i then jt i else jf i)) r) a x nr arch
          | JGE => exec f (skipn (N.to_nat (if k i <=? a then jt i else jf i)) r) a x nr arch
          | JSET => exec f (skipn (N.to_nat (if N.land a (k i) =? 0 then jf i else jt i)) r) a x nr arch
          | AND_K => exec f r (N.land a (k i)) x nr arch
          | LSH_X => if x <? 32 then exec f r (u32 (N.shiftl a x)) x nr arch else None
          | RSH_K => exec f r (N.shiftr a (k i)) x nr arch
          | TAX => exec f r a a nr arch
          | TXA => exec f r x x nr arch
          end
      end
  end.
Definition run_bpf (prog : list insn) (arch nr : N) : option N := exec (length prog) prog 0 0 nr arch.

(** src/filter_seccomp.c:31-33 *)
Definition PH_NEXT : N := 255.
Definition PH_TRACE : N := 254.
Definition PH_ALLOW : N := 253.

(** src/filter_seccomp.c:35-42, SET_BPF_STMT and SET_BPF_JUMP. *)
Definition stmt (o : opcode) (kk : N) : insn := {| op := o; jt := 0; jf := 0; k := kk |}.
Definition jump (o : opcode) (kk t f : N) : insn := {| op := o; jt := t; jf := f; k := kk |}.

(** What the generators know of a personality: audit_arch_vec[p].arch, .flag, and
    for each table slot whether traced_by_seccomp (below) holds; the length of
    [traced] is nsyscall_vec[p]. *)
Record pers := { p_arch : N; p_flag : N; traced : list bool }.

(** src/filter_seccomp.c:255-265, traced_by_seccomp, for one table slot with flags
    [sys_flags]; [in_trace_set] is is_number_in_set_array(scno, trace_set, p). *)
Definition traced_by_seccomp (stack_trace comm : bool) (sys_flags : N) (in_trace_set : bool) : bool :=
  let always := N.lor (N.lor 1024 1048576)        (* TRACE_INDIRECT_SUBCALL | TRACE_SECCOMP_DEFAULT *)
                 (N.lor (if stack_trace then 256 else 0)     (* MEMORY_MAPPING_CHANGE *)
                        (if comm then 8388608 else 0)) in    (* COMM_CHANGE *)
  negb (N.land sys_flags always =? 0) || in_trace_set.

(** src/filter_seccomp.c:267-284, replace_jmp_placeholders. *)
Definition replace_ph (off nxt trc alw : N) : N :=
  if off =? PH_NEXT then nxt
  else if off =? PH_TRACE then trc
  else if off =? PH_ALLOW then alw
  else off.

(** src/filter_seccomp.c:412-422 (and 550-560) for one instruction that has
    [after] instructions behind it in its section (after = pos - i - 1).
    Offsets are unsigned char. *)
Definition patch1 (i : insn) (after : N) : insn :=
  if is_jmp (op i) then
    let nxt := u8 after in
    let trc := u8 (after + 256 - 1) in
    let alw := u8 (after + 256 - 2) in
    {| op := op i;
       jt := replace_ph (jt i) nxt trc alw;
       jf := replace_ph (jf i) nxt trc alw;
       k := match op i with JA => nxt | _ => k i end |}
  else i.
(** src/filter_seccomp.c:411-423 (and 549-561): the loop over [start, end); the
    last [tl] instructions of the section are not visited. *)
Fixpoint patch (body : list insn) (tl : nat) : list insn :=
  match body with
  | [] => []
  | i :: r => patch1 i (N.of_nat (length r + tl)) :: patch r tl
  end.

(** src/filter_seccomp.c:286-302, bpf_syscalls_cmp. *)
Definition bpf_syscalls_cmp (lower upper : N) : list insn :=
  if lower + 1 =? upper then [jump JEQ lower PH_TRACE 0]
  else [jump JGE lower 0 1; jump JGE upper 0 PH_TRACE].

(** src/filter_seccomp.c:365-382, the loop over the syscall table and what follows
    it; [lower] = UINT_MAX is [None]. *)
Fixpoint cmp_loop (flag : N) (tr : list bool) (i : N) (lower : option N) : list insn :=
  match tr with
  | [] => match lower with
          | Some lo => bpf_syscalls_cmp (N.lor lo flag) (N.lor i flag)
          | None => []
          end
  | true :: r => cmp_loop flag r (i + 1) (match lower with None => Some i | _ => lower end)
  | false :: r => match lower with
                  | None => cmp_loop flag r (i + 1) None
                  | Some lo => bpf_syscalls_cmp (N.lor lo flag) (N.lor i flag)
                               ++ cmp_loop flag r (i + 1) None
                  end
  end.

(** src/filter_seccomp.c:345-363 (and 485-499), the head of a section;
    [multi] is SUPPORTED_PERSONALITIES > 1. *)
Definition section_head (multi : bool) (p : pers) : list insn :=
  (if multi then [jump JEQ (p_arch p) 0 PH_NEXT] else []) ++
  [stmt LD_ABS OFF_NR] ++
  (if multi && negb (p_flag p =? 0)
   then [jump JGE (p_flag p) 2 0; stmt LD_ABS OFF_ARCH; jump JA PH_NEXT 0 0]
   else []).

(** src/filter_seccomp.c:342-423, one iteration of the personality loop. *)
Definition linear_body (multi : bool) (p : pers) : list insn :=
  section_head multi p ++ cmp_loop (p_flag p) (traced p) 0 None.
Definition linear_tail (p : pers) : list insn :=
  [jump JGE (N.lor (N.of_nat (length (traced p))) (p_flag p)) 1 0; stmt RET RET_ALLOW; stmt RET RET_TRACE].

(** The personality loop, given the sections in generation order (last
    personality first): [None] when a section is longer than UCHAR_MAX
    (src/filter_seccomp.c:406-409, overflow). *)
Fixpoint gen_sections (body tail : pers -> list insn) (ps : list pers) : option (list insn) :=
  match ps with
  | [] => Some []
  | p :: r =>
      if Nat.ltb 255 (length (body p) + length (tail p)) then None
      else match gen_sections body tail r with
           | Some l => Some (patch (body p) (length (tail p)) ++ tail p ++ l)
           | None => None
           end
  end.

(** src/filter_seccomp.c:304-432, linear_filter_generator; [None] = overflow. *)
Definition linear_filter_generator (ps : list pers) : option (list insn) :=
  let multi := Nat.ltb 1 (length ps) in
  match gen_sections (linear_body multi) linear_tail (rev ps) with
  | None => None
  | Some l => Some ((if multi then [stmt LD_ABS OFF_ARCH] else []) ++ l ++
                    (if multi then [stmt RET RET_TRACE] else []))
  end.

(** src/filter_seccomp.c:434-460, bpf_syscalls_match. *)
Definition bpf_syscalls_match (bitarray idx : N) : list insn :=
  if bitarray =? 0 then [jump JEQ idx PH_ALLOW 0]
  else if bitarray =? 2^32 - 1 then [jump JEQ idx PH_TRACE 0]
  else [jump JEQ idx 0 2; stmt TXA 0; jump JSET bitarray PH_TRACE PH_ALLOW].

(** src/filter_seccomp.c:524-535, the loop over the table.  The C code also stops
    when the program exceeds BPF_MAXINSNS; the section is then longer than
    UCHAR_MAX in any case, so that exit is not modelled. *)
Fixpoint match_loop (tr : list bool) (i bitarray : N) : list insn :=
  match tr with
  | [] => if i mod 32 =? 0 then [] else bpf_syscalls_match bitarray (i / 32)
  | b :: r =>
      let ba := if b then N.lor bitarray (N.shiftl 1 (i mod 32)) else bitarray in
      if i mod 32 =? 31 then bpf_syscalls_match ba (i / 32) ++ match_loop r (i + 1) 0
      else match_loop r (i + 1) ba
  end.

(** ~flag in 32 bits *)
Definition not32 (f : N) : N := N.lxor f (2^32 - 1).

(** src/filter_seccomp.c:481-542, one iteration of the personality loop. *)
Definition binary_body (multi : bool) (p : pers) : list insn :=
  section_head multi p ++
  (if multi && negb (p_flag p =? 0) then [stmt AND_K (not32 (p_flag p))] else []) ++
  [stmt AND_K 31; stmt TAX 0; stmt LD_IMM 1; stmt LSH_X 0; stmt TAX 0; stmt LD_ABS OFF_NR] ++
  (if negb (p_flag p =? 0) then [stmt AND_K (not32 (p_flag p))] else []) ++
  [stmt RSH_K 5] ++
  match_loop (traced p) 0 0.
Definition binary_tail (p : pers) : list insn := [stmt RET RET_ALLOW; stmt RET RET_TRACE].

(** src/filter_seccomp.c:462-569, binary_match_filter_generator. *)
Definition binary_match_filter_generator (ps : list pers) : option (list insn) :=
  let multi := Nat.ltb 1 (length ps) in
  match gen_sections (binary_body multi) binary_tail (rev ps) with
  | None => None
  | Some l => Some ((if multi then [stmt LD_ABS OFF_ARCH] else []) ++ l ++
                    (if multi then [stmt RET RET_TRACE] else []))
  end.

Definition BPF_MAXINSNS : N := 4096.
(** src/filter_seccomp.c:581-599, the choice between the generators: the program
    used, or [None] when filtering is disabled.  bpf_prog.len starts as USHRT_MAX. *)
Definition pick (cur : option (list insn)) (cand : option (list insn)) : option (list insn) :=
  match cand with
  | None => cur
  | Some c => let len := match cur with Some u => N.of_nat (length u) | None => 65535 end in
              if N.of_nat (length c) <? len then Some c else cur
  end.
Definition check_seccomp_filter_properties (ps : list pers) : option (list insn) :=
  match pick (pick None (linear_filter_generator ps)) (binary_match_filter_generator ps) with
  | None => None
  | Some prog => if BPF_MAXINSNS <? N.of_nat (length prog) then None else Some prog
  end.
