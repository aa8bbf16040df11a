(** BPF programs: src/bpf_filter.c, src/bpf_seccomp_filter.c, src/bpf_sock_filter.c, and the instructions of src/bpf.c:105-155. *)
From Verif Require Import Base Printf BitsModel RetModel XlatModel ModeModel CompModel.
Local Open Scope N_scope.

(** src/xlat/bpf_class.in, ebpf_class.in *)
Definition bpf_class : xlat := indexed
  [(0, bs "BPF_LD"); (1, bs "BPF_LDX"); (2, bs "BPF_ST"); (3, bs "BPF_STX"); (4, bs "BPF_ALU"); (5, bs "BPF_JMP"); (6, bs "BPF_RET"); (7, bs "BPF_MISC")].
Definition ebpf_class : xlat := indexed
  [(0, bs "BPF_LD"); (1, bs "BPF_LDX"); (2, bs "BPF_ST"); (3, bs "BPF_STX"); (4, bs "BPF_ALU"); (5, bs "BPF_JMP"); (6, bs "BPF_JMP32"); (7, bs "BPF_ALU64")].
(** src/xlat/bpf_size.in, ebpf_size.in, bpf_mode.in, ebpf_mode.in *)
Definition bpf_size : xlat := normal [(0, bs "BPF_W"); (8, bs "BPF_H"); (16, bs "BPF_B"); (24, bs "BPF_DW")].
Definition ebpf_size : xlat := normal [(24, bs "BPF_DW")].
Definition bpf_mode : xlat := normal
  [(0, bs "BPF_IMM"); (32, bs "BPF_ABS"); (64, bs "BPF_IND"); (96, bs "BPF_MEM"); (128, bs "BPF_LEN"); (160, bs "BPF_MSH"); (192, bs "BPF_XADD")].
Definition ebpf_mode : xlat := normal
  [(0, bs "BPF_IMM"); (32, bs "BPF_ABS"); (64, bs "BPF_IND"); (96, bs "BPF_MEM"); (128, bs "BPF_MEMSX"); (192, bs "BPF_XADD")].
(** src/xlat/bpf_op_alu.in, ebpf_op_alu.in, bpf_op_jmp.in, ebpf_op_jmp.in *)
Definition bpf_op_alu : xlat := normal
  [(0, bs "BPF_ADD"); (16, bs "BPF_SUB"); (32, bs "BPF_MUL"); (48, bs "BPF_DIV"); (64, bs "BPF_OR"); (80, bs "BPF_AND"); (96, bs "BPF_LSH"); (112, bs "BPF_RSH");
   (128, bs "BPF_NEG"); (144, bs "BPF_MOD"); (160, bs "BPF_XOR"); (176, bs "BPF_MOV"); (192, bs "BPF_ARSH"); (208, bs "BPF_END")].
Definition ebpf_op_alu : xlat := normal [(176, bs "BPF_MOV"); (192, bs "BPF_ARSH"); (208, bs "BPF_END")].
Definition bpf_op_jmp : xlat := normal
  [(0, bs "BPF_JA"); (16, bs "BPF_JEQ"); (32, bs "BPF_JGT"); (48, bs "BPF_JGE"); (64, bs "BPF_JSET"); (80, bs "BPF_JNE"); (96, bs "BPF_JSGT"); (112, bs "BPF_JSGE");
   (128, bs "BPF_CALL"); (144, bs "BPF_EXIT"); (160, bs "BPF_JLT"); (176, bs "BPF_JLE"); (192, bs "BPF_JSLT"); (208, bs "BPF_JSLE"); (224, bs "BPF_JCOND")].
Definition ebpf_op_jmp : xlat := normal
  [(80, bs "BPF_JNE"); (96, bs "BPF_JSGT"); (112, bs "BPF_JSGE"); (128, bs "BPF_CALL"); (144, bs "BPF_EXIT"); (160, bs "BPF_JLT"); (176, bs "BPF_JLE");
   (192, bs "BPF_JSLT"); (208, bs "BPF_JSLE")].
(** src/xlat/bpf_src.in, bpf_rval.in, bpf_miscop.in *)
Definition bpf_src : xlat := normal [(0, bs "BPF_K"); (8, bs "BPF_X")].
Definition bpf_rval : xlat := normal [(0, bs "BPF_K"); (8, bs "BPF_X"); (16, bs "BPF_A")].
Definition bpf_miscop : xlat := normal [(0, bs "BPF_TAX"); (128, bs "BPF_TXA")].

(** <linux/bpf_common.h>, <linux/filter.h>: BPF_CLASS, BPF_SIZE, BPF_MODE, BPF_OP, BPF_SRC, BPF_RVAL, BPF_MISCOP *)
Definition CLASS (code : N) : N := N.land code 7.
Definition SIZE (code : N) : N := N.land code 24.
Definition MODE (code : N) : N := N.land code 224.
Definition OP (code : N) : N := N.land code 240.
Definition SRC (code : N) : N := N.land code 8.
Definition RVAL (code : N) : N := N.land code 24.
Definition MISCOP (code : N) : N := N.land code 248.

Definition unknown : option (list N) := Some (bs "BPF_???").
(** |0x.. and a comment, when something is left: src/bpf_filter.c:46-50, 67-71, 98-102 *)
Definition rest_text (i : N) : list N := if i =? 0 then [] else bar ++ pr_hex i ++ comment unknown.
(** src/bpf_filter.c:33-107; [code] is a uint16_t *)
Definition filter_code (st : xstyle_t) (extended : bool) (code : N) : list N :=
  let i := N.ldiff code (CLASS code) in
  let val x v := printxval st x v unknown in
  let vals v x y := printxvals_ex v unknown st FMT_X (x :: if (extended : bool) then [y] else []) in
  let load := bar ++ vals (SIZE code) bpf_size ebpf_size ++ bar ++ val (if extended then ebpf_mode else bpf_mode) (MODE code) in
  let alu := bar ++ val bpf_src (SRC code) ++ bar ++ vals (OP code) bpf_op_alu ebpf_op_alu in
  val (if extended then ebpf_class else bpf_class) (CLASS code) ++
  (if (CLASS code =? 2) || (CLASS code =? 3) then if negb extended then rest_text i else load
   else if (CLASS code =? 0) || (CLASS code =? 1) then load
   else if CLASS code =? 7 then
     if negb extended then bar ++ val bpf_miscop (MISCOP code) ++ rest_text (N.ldiff i (MISCOP code)) else alu
   else if CLASS code =? 4 then alu
   else if CLASS code =? 5 then bar ++ val bpf_src (SRC code) ++ bar ++ vals (OP code) bpf_op_jmp ebpf_op_jmp
   else if CLASS code =? 6 then
     if negb extended then bar ++ val bpf_rval (RVAL code) ++ rest_text (N.ldiff i (RVAL code)) else rest_text i
   else []).

(** struct bpf_filter_block, src/bpf_filter.h *)
Record block := Blk { code : N; jt : N; jf : N; k : N }.
(** which function prints k: none, print_seccomp_filter_k, print_sock_filter_k *)
Inductive user := Plain | Seccomp | Socket.
(** src/xlat/seccomp_ret_action.in, skf_ad.in *)
Definition seccomp_ret_action : xlat := normal
  [(0x80000000, bs "SECCOMP_RET_KILL_PROCESS"); (0, bs "SECCOMP_RET_KILL_THREAD"); (0x30000, bs "SECCOMP_RET_TRAP"); (0x50000, bs "SECCOMP_RET_ERRNO");
   (0x7fc00000, bs "SECCOMP_RET_USER_NOTIF"); (0x7ff00000, bs "SECCOMP_RET_TRACE"); (0x7ffc0000, bs "SECCOMP_RET_LOG"); (0x7fff0000, bs "SECCOMP_RET_ALLOW")].
Definition skf_ad : xlat := normal
  [(0, bs "SKF_AD_PROTOCOL"); (4, bs "SKF_AD_PKTTYPE"); (8, bs "SKF_AD_IFINDEX"); (12, bs "SKF_AD_NLATTR"); (16, bs "SKF_AD_NLATTR_NEST"); (20, bs "SKF_AD_MARK");
   (24, bs "SKF_AD_QUEUE"); (28, bs "SKF_AD_HATYPE"); (32, bs "SKF_AD_RXHASH"); (36, bs "SKF_AD_CPU"); (40, bs "SKF_AD_ALU_XOR_X"); (44, bs "SKF_AD_VLAN_TAG");
   (48, bs "SKF_AD_VLAN_TAG_PRESENT"); (52, bs "SKF_AD_PAY_OFFSET"); (56, bs "SKF_AD_RANDOM"); (60, bs "SKF_AD_VLAN_TPID")].
(** src/xlat/skf_off.in, as unsigned int *)
Definition SKF_AD_OFF : N := 0xfffff000.
Definition SKF_NET_OFF : N := 0xfff00000.
Definition SKF_LL_OFF : N := 0xffe00000.
(** src/bpf_seccomp_filter.c:18-38 *)
Definition seccomp_k (st : xstyle_t) (f : block) : option (list N) :=
  if CLASS (code f) =? 6 then
    let action := N.land 0xffff0000 (k f) in let data := N.ldiff (k f) action in
    Some (printxval st seccomp_ret_action action (Some (bs "SECCOMP_RET_???")) ++ (if data =? 0 then [] else bar ++ pr_hex data))
  else None.
(** src/bpf_sock_filter.c:21-46 *)
Definition plus : list N := bs "+".
Definition sock_k (st : xstyle_t) (f : block) : option (list N) :=
  if (CLASS (code f) =? 0) && (MODE (code f) =? 32) then
    if SKF_AD_OFF <=? k f then Some (print_xlat st SKF_AD_OFF (bs "SKF_AD_OFF") ++ plus ++ printxval st skf_ad (k f - SKF_AD_OFF) (Some (bs "SKF_AD_???")))
    else if SKF_NET_OFF <=? k f then Some (print_xlat st SKF_NET_OFF (bs "SKF_NET_OFF") ++ plus ++ pr_num 10 (k f - SKF_NET_OFF))
    else if SKF_LL_OFF <=? k f then Some (print_xlat st SKF_LL_OFF (bs "SKF_LL_OFF") ++ plus ++ pr_num 10 (k f - SKF_LL_OFF))
    else None
  else None.
Definition print_k (u : user) (st : xstyle_t) (f : block) : option (list N) :=
  match u with Plain => None | Seccomp => seccomp_k st f | Socket => sock_k st f end.
Definition arg_next : list N := bs ", ".
(** src/bpf_filter.c:109-141 *)
Definition stmt (u : user) (st : xstyle_t) (f : block) : list N :=
  bs "BPF_STMT(" ++ filter_code st false (code f) ++ arg_next ++ match print_k u st f with Some t => t | None => pr_hex (k f) end ++ bs ")".
Definition jump (st : xstyle_t) (f : block) : list N :=
  bs "BPF_JUMP(" ++ filter_code st false (code f) ++ arg_next ++ pr_hex (k f) ++ arg_next ++ pr_hex (jt f) ++ arg_next ++ pr_hex (jf f) ++ bs ")".
(** src/bpf_filter.c:148-167, for the elements from number [count] on *)
Definition BPF_MAXINSNS : N := 4096.
Definition one_block (u : user) (st : xstyle_t) (f : block) : list N :=
  if negb (jt f =? 0) || negb (jf f =? 0) then jump st f else stmt u st f.
Fixpoint blocks {A} (show : A -> list N) (count : N) (l : list A) : list (list N) :=
  match l with
  | [] => []
  | f :: r => if BPF_MAXINSNS <=? count then [bs "..."] else show f :: blocks show (count + 1) r
  end.
(** src/bpf_filter.c:169-184 with print_array (ArrayModel) when all elements can be read *)
Definition fprog (u : user) (st : xstyle_t) (l : list block) : list (list N) := blocks (one_block u st) 0 l.

(** struct ebpf_insn, src/bpf.c:107-117; off and imm are signed *)
Record insn := Insn { icode : N; dst_reg : N; src_reg : N; off : N; imm : N }.
(** src/xlat/ebpf_regs.in *)
Definition ebpf_regs : xlat := indexed
  [(0, bs "BPF_REG_0"); (1, bs "BPF_REG_1"); (2, bs "BPF_REG_2"); (3, bs "BPF_REG_3"); (4, bs "BPF_REG_4"); (5, bs "BPF_REG_5"); (6, bs "BPF_REG_6");
   (7, bs "BPF_REG_7"); (8, bs "BPF_REG_8"); (9, bs "BPF_REG_9"); (10, bs "BPF_REG_10")].
Definition sgn16 (n : N) : Z := if n <? 2^15 then Z.of_N n else (Z.of_N n - 2^16)%Z.
(** src/bpf.c:125-155 *)
Definition one_insn (st : xstyle_t) (i : insn) : list N :=
  bs "{code=" ++ filter_code st true (icode i) ++ bs ", dst_reg=" ++ printxval st ebpf_regs (dst_reg i) (Some (bs "BPF_REG_???"))
  ++ bs ", src_reg=" ++ printxval st ebpf_regs (src_reg i) (Some (bs "BPF_REG_???")) ++ bs ", off=" ++ pr_z (sgn16 (off i)) ++ bs ", imm=" ++ pr_hex (imm i) ++ bs "}".
Definition ebpf_prog (st : xstyle_t) (l : list insn) : list (list N) := blocks (one_insn st) 0 l.
