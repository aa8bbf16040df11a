(** BPF programs as C source: <linux/filter.h>, <linux/bpf_common.h>, <linux/bpf.h>, <linux/seccomp.h>. *)
From Verif Require Import Base RetSpec ModeSpec CompSpec BpfModel.
Local Open Scope N_scope.

Definition bpf_names : list (N * list N) :=
  [(0, bs "BPF_LD"); (1, bs "BPF_LDX"); (2, bs "BPF_ST"); (3, bs "BPF_STX"); (4, bs "BPF_ALU"); (5, bs "BPF_JMP"); (6, bs "BPF_RET"); (7, bs "BPF_MISC");
   (6, bs "BPF_JMP32"); (7, bs "BPF_ALU64");
   (0x00, bs "BPF_W"); (0x08, bs "BPF_H"); (0x10, bs "BPF_B"); (0x18, bs "BPF_DW");
   (0x00, bs "BPF_IMM"); (0x20, bs "BPF_ABS"); (0x40, bs "BPF_IND"); (0x60, bs "BPF_MEM"); (0x80, bs "BPF_LEN"); (0xa0, bs "BPF_MSH"); (0x80, bs "BPF_MEMSX"); (0xc0, bs "BPF_XADD");
   (0x00, bs "BPF_ADD"); (0x10, bs "BPF_SUB"); (0x20, bs "BPF_MUL"); (0x30, bs "BPF_DIV"); (0x40, bs "BPF_OR"); (0x50, bs "BPF_AND"); (0x60, bs "BPF_LSH"); (0x70, bs "BPF_RSH");
   (0x80, bs "BPF_NEG"); (0x90, bs "BPF_MOD"); (0xa0, bs "BPF_XOR"); (0xb0, bs "BPF_MOV"); (0xc0, bs "BPF_ARSH"); (0xd0, bs "BPF_END");
   (0x00, bs "BPF_JA"); (0x10, bs "BPF_JEQ"); (0x20, bs "BPF_JGT"); (0x30, bs "BPF_JGE"); (0x40, bs "BPF_JSET"); (0x50, bs "BPF_JNE"); (0x60, bs "BPF_JSGT"); (0x70, bs "BPF_JSGE");
   (0x80, bs "BPF_CALL"); (0x90, bs "BPF_EXIT"); (0xa0, bs "BPF_JLT"); (0xb0, bs "BPF_JLE"); (0xc0, bs "BPF_JSLT"); (0xd0, bs "BPF_JSLE"); (0xe0, bs "BPF_JCOND");
   (0x00, bs "BPF_K"); (0x08, bs "BPF_X"); (0x10, bs "BPF_A"); (0x00, bs "BPF_TAX"); (0x80, bs "BPF_TXA");
   (0, bs "BPF_REG_0"); (1, bs "BPF_REG_1"); (2, bs "BPF_REG_2"); (3, bs "BPF_REG_3"); (4, bs "BPF_REG_4"); (5, bs "BPF_REG_5"); (6, bs "BPF_REG_6"); (7, bs "BPF_REG_7");
   (8, bs "BPF_REG_8"); (9, bs "BPF_REG_9"); (10, bs "BPF_REG_10");
   (0x80000000, bs "SECCOMP_RET_KILL_PROCESS"); (0x00000000, bs "SECCOMP_RET_KILL_THREAD"); (0x00030000, bs "SECCOMP_RET_TRAP"); (0x00050000, bs "SECCOMP_RET_ERRNO");
   (0x7fc00000, bs "SECCOMP_RET_USER_NOTIF"); (0x7ff00000, bs "SECCOMP_RET_TRACE"); (0x7ffc0000, bs "SECCOMP_RET_LOG"); (0x7fff0000, bs "SECCOMP_RET_ALLOW");
   (2^32 - 0x1000, bs "SKF_AD_OFF"); (2^32 - 0x100000, bs "SKF_NET_OFF"); (2^32 - 0x200000, bs "SKF_LL_OFF");
   (0, bs "SKF_AD_PROTOCOL"); (4, bs "SKF_AD_PKTTYPE"); (8, bs "SKF_AD_IFINDEX"); (12, bs "SKF_AD_NLATTR"); (16, bs "SKF_AD_NLATTR_NEST"); (20, bs "SKF_AD_MARK");
   (24, bs "SKF_AD_QUEUE"); (28, bs "SKF_AD_HATYPE"); (32, bs "SKF_AD_RXHASH"); (36, bs "SKF_AD_CPU"); (40, bs "SKF_AD_ALU_XOR_X"); (44, bs "SKF_AD_VLAN_TAG");
   (48, bs "SKF_AD_VLAN_TAG_PRESENT"); (52, bs "SKF_AD_PAY_OFFSET"); (56, bs "SKF_AD_RANDOM"); (60, bs "SKF_AD_VLAN_TPID")].

(** the value of an expression, or of the sum of two constants, as unsigned int *)
Definition has_value (text : list N) (v : N) : Prop :=
  denotes bpf_names text v \/
  exists a b x y, uncomment false text = a ++ bs "+" ++ b /\ ~ In 43 a /\ value_of bpf_names a = Some x /\ value_of bpf_names b = Some y /\ (x + y) mod 2^32 = v.
(** the source of an instruction: BPF_STMT(code, k) or BPF_JUMP(code, k, jt, jf); no argument contains a comma or parenthesis *)
Definition argument (t : list N) : Prop := ~ In 44 t /\ ~ In 40 t /\ ~ In 41 t.
Definition source (text : list N) (f : block) : Prop :=
  exists c v, argument c /\ argument v /\ denotes bpf_names c (code f) /\ has_value v (k f) /\
    (text = bs "BPF_STMT(" ++ c ++ bs ", " ++ v ++ bs ")" /\ jt f = 0 /\ jf f = 0 \/
     exists a b, argument a /\ argument b /\ text = bs "BPF_JUMP(" ++ c ++ bs ", " ++ v ++ bs ", " ++ a ++ bs ", " ++ b ++ bs ")" /\
                 c_number a = Some (Z.of_N (jt f)) /\ c_number b = Some (Z.of_N (jf f))).
(** the members of struct bpf_insn *)
Definition members (text : list N) (i : insn) : Prop :=
  exists c d s o v, argument c /\ argument d /\ argument s /\
    text = bs "{code=" ++ c ++ bs ", dst_reg=" ++ d ++ bs ", src_reg=" ++ s ++ bs ", off=" ++ o ++ bs ", imm=" ++ v ++ bs "}" /\
    denotes bpf_names c (icode i) /\ denotes bpf_names d (dst_reg i) /\ denotes bpf_names s (src_reg i) /\
    c_number o = Some (if off i <? 2^15 then Z.of_N (off i) else (Z.of_N (off i) - 2^16)%Z) /\ c_number v = Some (Z.of_N (imm i)).
(** The fields of an instruction code that a class has.  Loads, arithmetic and jumps have no use for bits above 255. *)
Definition all_bits_shown (code : N) : bool := (code <? 256) || existsb (N.eqb (N.land code 7)) [2; 3; 6; 7].

(** The macros an instruction is written with: the class says which fields the rest of the code has. *)
Definition one_of (v : N) (l : list (N * list N)) : option (list N) := option_map snd (find (fun e => fst e =? v) l).
Definition classes : list (N * list N) :=
  [(0, bs "BPF_LD"); (1, bs "BPF_LDX"); (2, bs "BPF_ST"); (3, bs "BPF_STX"); (4, bs "BPF_ALU"); (5, bs "BPF_JMP"); (6, bs "BPF_RET"); (7, bs "BPF_MISC")].
Definition sizes : list (N * list N) := [(0x00, bs "BPF_W"); (0x08, bs "BPF_H"); (0x10, bs "BPF_B")].
Definition modes : list (N * list N) := [(0x00, bs "BPF_IMM"); (0x20, bs "BPF_ABS"); (0x40, bs "BPF_IND"); (0x60, bs "BPF_MEM"); (0x80, bs "BPF_LEN"); (0xa0, bs "BPF_MSH")].
Definition operations : list (N * list N) :=
  [(0x00, bs "BPF_ADD"); (0x10, bs "BPF_SUB"); (0x20, bs "BPF_MUL"); (0x30, bs "BPF_DIV"); (0x40, bs "BPF_OR"); (0x50, bs "BPF_AND"); (0x60, bs "BPF_LSH"); (0x70, bs "BPF_RSH");
   (0x80, bs "BPF_NEG"); (0x90, bs "BPF_MOD"); (0xa0, bs "BPF_XOR")].
Definition conditions : list (N * list N) := [(0x00, bs "BPF_JA"); (0x10, bs "BPF_JEQ"); (0x20, bs "BPF_JGT"); (0x30, bs "BPF_JGE"); (0x40, bs "BPF_JSET")].
Definition operands : list (N * list N) := [(0x00, bs "BPF_K"); (0x08, bs "BPF_X")].
Definition results : list (N * list N) := [(0x00, bs "BPF_K"); (0x08, bs "BPF_X"); (0x10, bs "BPF_A")].
Definition moves : list (N * list N) := [(0x00, bs "BPF_TAX"); (0x80, bs "BPF_TXA")].
Definition field (c from width : N) : N := c / 2^from mod 2^width * 2^from.
Definition fields (c : N) : list (N * list (N * list N)) :=
  (field c 0 3, classes) ::
  match c mod 8 with
  | 0 | 1 => [(field c 3 2, sizes); (field c 5 3, modes)]
  | 4 => [(field c 3 1, operands); (field c 4 4, operations)]
  | 5 => [(field c 3 1, operands); (field c 4 4, conditions)]
  | 6 => [(field c 3 2, results)]
  | 7 => [(field c 3 5, moves)]
  | _ => []
  end.
Definition named (c : N) (names : list (list N)) : Prop :=
  fold_right (fun f a => fst f + a) 0 (fields c) = c /\ map (fun f => one_of (fst f) (snd f)) (fields c) = map Some names.
Definition ored (l : list (list N)) : list N := match l with [] => [] | a :: r => a ++ concat (map (fun t => bs "|" ++ t) r) end.
