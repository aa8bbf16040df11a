(** How memory policies and sets of memory nodes are shown: src/numa.c.
    print_array is that of ArrayModel (see C49), printxval and printflags those of XlatModel (see C36, C37), the memory of the
    tracee that of ExtModel (see C32).  The text of a pid (printpid, see C78) is a parameter. *)
From Verif Require Import Base Printf InfoModel XlatModel.
From Verif Require BitsModel ExtModel TvalModel RetModel ArrayModel.
Local Open Scope N_scope.

(** What is around an array: ExtModel.opts, the memory, abbrev(tcp), current_wordsize, xlat_verbosity *)
Record env := { o : ExtModel.opts; m : ExtModel.memory; abbrev : bool; ws : N; st : BitsModel.xstyle_t }.

(** what the tokens of ArrayModel write (src/print_fields.h, src/util.c:399-416); [pf]: the text of an element; the arrays of
    numa.c have no indices *)
Definition tok_text (pf : list N -> list N) (t : ArrayModel.tok) : list N :=
  match t with
  | ArrayModel.Null => bs "NULL"
  | ArrayModel.Unavail => bs "???"
  | ArrayModel.Addr a => TvalModel.printaddr a
  | ArrayModel.AddrComment a => bs " /* " ++ TvalModel.printaddr a ++ bs " */"
  | ArrayModel.Begin => bs "["
  | ArrayModel.Next => bs ", "
  | ArrayModel.More => bs "..."
  | ArrayModel.End => bs "]"
  | ArrayModel.Elem v => pf v
  | _ => []
  end.
(** print_array, src/defs.h, with tfetch_mem of src/util.c:1732-1739 *)
Definition array_args (e : env) (addr n esz : N) : ArrayModel.arr :=
  ArrayModel.mk_arr addr n esz false (fun x => ExtModel.umoven_or_printaddr (o e) (m e) x (N.to_nat esz)) (fun _ => true) false false
    (abbrev e) (ExtModel.max_strlen (o e)).
Definition print_array (e : env) (pf : list N -> list N) (addr n esz : N) : list N :=
  concat (map (tok_text pf) (snd (ArrayModel.print_array_ex (array_args e addr n esz)))).

(** src/print_fields.h:333-335 PRINT_VAL_0X, "%#0*llx"; [size]: of the value *)
Definition print_val_0x (size : nat) (v : N) : list N :=
  if v =? 0 then repeat 48 (size * 2) else bs "0x" ++ pr_pad 16 (size * 2 - 2) v.
(** src/numa.c:12-24; kernel_ulong_t has 8 bytes *)
Definition print_node (b : list N) : list N :=
  if (length b <? 8)%nat then print_val_0x 4 (ld b 0 4) else print_val_0x 8 (ld b 0 8).
(** src/numa.c:26-43 *)
Definition print_nodemask (e : env) (addr maxnodes : N) : list N :=
  let bits := 8 * ws e in
  let nmemb := u64 (maxnodes + bits - 2) / bits in
  if (nmemb <? maxnodes / bits) || (negb (maxnodes =? 0) && (nmemb =? 0)) then TvalModel.printaddr addr
  else print_array e print_node addr nmemb (ws e).

(** src/xlat/mpol_modes.in, src/xlat/mpol_mode_flags.in, src/xlat/mbind_flags.in, src/xlat/get_mempolicy_flags.in *)
Definition mpol_modes : xlat := {| ty := XT_INDEXED; data :=
  [(0, Some (bs "MPOL_DEFAULT")); (1, Some (bs "MPOL_PREFERRED")); (2, Some (bs "MPOL_BIND")); (3, Some (bs "MPOL_INTERLEAVE"));
   (4, Some (bs "MPOL_LOCAL")); (5, Some (bs "MPOL_PREFERRED_MANY")); (6, Some (bs "MPOL_WEIGHTED_INTERLEAVE"))] |}.
Definition mpol_mode_flags : xlat := {| ty := XT_NORMAL; data :=
  [(2^15, Some (bs "MPOL_F_STATIC_NODES")); (2^14, Some (bs "MPOL_F_RELATIVE_NODES")); (2^13, Some (bs "MPOL_F_NUMA_BALANCING"))] |}.
Definition mbind_flags : xlat := {| ty := XT_NORMAL; data :=
  [(1, Some (bs "MPOL_MF_STRICT")); (2, Some (bs "MPOL_MF_MOVE")); (4, Some (bs "MPOL_MF_MOVE_ALL"))] |}.
(** src/xlat/move_pages_flags.in *)
Definition move_pages_flags : xlat := {| ty := XT_NORMAL; data := [(2, Some (bs "MPOL_MF_MOVE")); (4, Some (bs "MPOL_MF_MOVE_ALL"))] |}.
Definition get_mempolicy_flags : xlat := {| ty := XT_NORMAL; data :=
  [(1, Some (bs "MPOL_F_NODE")); (2, Some (bs "MPOL_F_ADDR")); (4, Some (bs "MPOL_F_MEMS_ALLOWED"))] |}.
Definition dflt : option (list N) := Some (bs "MPOL_???").

(** src/numa.c:69-106 *)
Definition print_mode (s : BitsModel.xstyle_t) (mode_arg : N) : list N :=
  let flags_mask := N.lor (N.lor (2^15) (2^14)) (2^13) in
  let mode := N.ldiff mode_arg flags_mask in
  let flags := N.land mode_arg flags_mask in
  if flags =? 0 then printxvals_ex mode dflt s FMT_X [mpol_modes]
  else match xlookup mpol_modes mode with
  | None => printflags_ex mode_arg dflt s FMT_X [mpol_mode_flags]
  | Some mode_str =>
      let names := mode_str ++ bs "|" ++ printflags_ex flags None BitsModel.XABBREV FMT_X [mpol_mode_flags] in
      match s with
      | BitsModel.XRAW => pr_hex mode_arg
      | BitsModel.XVERBOSE => pr_hex mode_arg ++ bs " /* " ++ names ++ bs " */"
      | BitsModel.XABBREV => names
      end
  end.

(** the arguments separated by tprint_arg_next *)
Fixpoint args (l : list (list N)) : list N := match l with [] => [] | [x] => x | x :: r => x ++ bs ", " ++ args r end.
(** src/numa.c:45-63 *)
Definition migrate_pages (e : env) (pidtext : N -> list N) (a0 a1 a2 a3 : N) : list N :=
  args [pidtext a0; TvalModel.udec a1; print_nodemask e a2 a1; print_nodemask e a3 a1].
(** src/numa.c:108-134; printflags takes an unsigned int *)
Definition mbind (e : env) (a0 a1 a2 a3 a4 a5 : N) : list N :=
  args [TvalModel.printaddr a0; TvalModel.udec a1; print_mode (st e) a2; print_nodemask e a3 a4; TvalModel.udec a4;
        printflags_ex (u32 a5) dflt (st e) FMT_X [mbind_flags]].
(** src/numa.c:136-150 *)
Definition set_mempolicy (e : env) (a0 a1 a2 : N) : list N :=
  args [print_mode (st e) (u32 a0); print_nodemask e a1 a2; TvalModel.udec a2].
(** src/numa.c:154-182, on exit *)
Definition get_mempolicy (e : env) (a0 a1 a2 a3 a4 : N) : list N :=
  args [match ExtModel.umoven_or_printaddr (o e) (m e) a0 4 with
        | None => TvalModel.printaddr a0
        | Some b => bs "[" ++ printxvals_ex (ld b 0 4) dflt (st e) FMT_X [mpol_modes] ++ bs "]"
        end;
        print_nodemask e a1 a2; TvalModel.udec a2; TvalModel.printaddr a3; printflags_ex a4 dflt (st e) FMT_X [get_mempolicy_flags]].

(** src/numa.c:206-220 *)
Definition print_addr (b : list N) : list N :=
  TvalModel.printaddr (if (length b <? 8)%nat then ld b 0 4 else ld b 0 8).
(** src/util.c:1790-1803 print_int_array_member, of 4 bytes *)
Definition print_int (b : list N) : list N := TvalModel.sdec (TvalModel.sx 4 (ld b 0 4)).
(** src/syscall.c:418-430 print_err with negated; err_name takes an unsigned 64-bit number *)
Definition print_err (s : BitsModel.xstyle_t) (err : Z) : list N :=
  match RetModel.err_name (Z.to_N ((- err) mod 2^64)) with
  | None => TvalModel.sdec err
  | Some str =>
      match s with
      | BitsModel.XRAW => TvalModel.sdec err
      | BitsModel.XVERBOSE => TvalModel.sdec err ++ bs " /* " ++ bs "-" ++ str ++ bs " */"
      | BitsModel.XABBREV => bs "-" ++ str
      end
  end.
(** src/numa.c:222-230 *)
Definition print_status (s : BitsModel.xstyle_t) (b : list N) : list N := print_err s (TvalModel.sx 4 (ld b 0 4)).
(** src/numa.c:232-265: what is printed at entry and at exit *)
Definition move_pages_entering (e : env) (pidtext : N -> list N) (a0 a1 a2 a3 : N) : list N :=
  args [pidtext a0; TvalModel.udec a1; print_array e print_addr a2 a1 (ws e); print_array e print_int a3 a1 4; []].
Definition move_pages_exiting (e : env) (a1 a4 a5 : N) : list N :=
  args [print_array e (print_status (st e)) a4 a1 4; printflags_ex (u32 a5) dflt (st e) FMT_X [move_pages_flags]].
