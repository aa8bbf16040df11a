(** How the calls for extended attributes are shown: src/xattr.c, setxattr, getxattr, listxattr and their forms for descriptors (the structure of
    setxattrat is in ExtModel, C81).  printstr_ex is that of QuoteModel (C12-C15), printflags that of XlatModel (C36).
    The texts of the first argument (printpath or printfd) and of the name (printstr) are parameters. *)
From Verif Require Import Base Printf XlatModel QuoteModel.
From Verif Require BitsModel ExtModel TvalModel NumaModel.
Local Open Scope N_scope.

(** The bytes that can be read from [a] on, at most [n]: what umoven (src/ucopy.c; C32-C35) of some of them needs *)
Fixpoint from (m : ExtModel.memory) (a : N) (n : nat) : list N :=
  match n with
  | O => []
  | S k => match m (u64 a) with Some b => b :: from m (a + 1) k | None => [] end
  end.
(** What else the printers depend on: the memory, max_strlen, -x, the style of constants, the buffer of printstr_ex (src/util.c:1428-1436),
    and whether the call failed; u_rval is -1 then (src/syscall.c; C54) *)
Record env := { m : ExtModel.memory; max : N; xf : xflag_opts; st : BitsModel.xstyle_t; old : list N; failed : bool; rval : N }.
Definition u_rval (e : env) : N := if failed e then 2 ^ 64 - 1 else rval e.

(** what printstr_ex prints *)
Definition text (addr : N) (p : printed) : list N :=
  match p with
  | PText t more => t ++ (if more then bs "..." else [])
  | PAddr => TvalModel.printaddr addr
  | PNull => bs "NULL"
  | PUnavailable => bs "???"
  end.
Definition style (e : env) (omit : bool) : qstyle :=
  {| q0term := false; omit_quotes := false; omit0 := omit; expect0 := false; comment := false; xstyle := xf e |}.
Definition printstr (e : env) (omit : bool) (addr size : N) : res (list N) :=
  rlet p := printstr_ex (max e) (addr =? 0) (from (m e) addr (N.to_nat (max e + 1))) size (style e omit) (old e) in
  Ok (text addr p).
(** src/xattr.c:18-33 *)
Definition print_xattr_val (e : env) (addr size : N) : res (list N) :=
  if 65536 <? size then Ok (TvalModel.printaddr addr) else printstr e true addr size.
(** src/xlat/xattrflags.in *)
Definition xattrflags : xlat := {| ty := XT_NORMAL; data := [(1, Some (bs "XATTR_CREATE")); (2, Some (bs "XATTR_REPLACE"))] |}.

Definition args := NumaModel.args.
(** setxattr, fsetxattr, src/xattr.c:35-71; [first], [name]: the texts of the first two arguments *)
Definition setxattr (e : env) (first name : list N) (a2 a3 a4 : N) : res (list N) :=
  rlet v := print_xattr_val e a2 a3 in
  Ok (args [first; name; v; TvalModel.udec a3; printflags_ex (u32 a4) (Some (bs "XATTR_???")) (st e) FMT_X [xattrflags]]).
(** getxattr, fgetxattr, src/xattr.c:73-123; the value is printed when the call ends, unless size is 0 *)
Definition getxattr_entering (first name : list N) (a2 a3 : N) : list N * bool :=
  let t := first ++ bs ", " ++ name ++ bs ", " in
  if negb (a3 =? 0) then (t, false) else (t ++ TvalModel.printaddr a2 ++ bs ", " ++ TvalModel.udec a3, true).
Definition getxattr_exiting (e : env) (a2 a3 : N) : res (list N) :=
  rlet v := print_xattr_val e a2 (u_rval e) in
  Ok (v ++ bs ", " ++ TvalModel.udec a3).
(** ... and both, as the line is printed (RVAL_DECODED: nothing more on exit) *)
Definition getxattr (e : env) (first name : list N) (a2 a3 : N) : res (list N) :=
  let (t, decoded) := getxattr_entering first name a2 a3 in
  if decoded then Ok t else rlet u := getxattr_exiting e a2 a3 in Ok (t ++ u).
(** src/xattr.c:125-139 *)
Definition print_xattr_list (e : env) (addr size : N) : res (list N) :=
  rlet v := (if (size =? 0) || failed e then Ok (TvalModel.printaddr addr) else printstr e false addr (u_rval e)) in
  Ok (v ++ bs ", " ++ TvalModel.udec size).
(** listxattr, flistxattr, src/xattr.c:141-165 *)
Definition listxattr (e : env) (first : list N) (a1 a2 : N) : res (list N) :=
  rlet t := print_xattr_list e a1 a2 in Ok (first ++ bs ", " ++ t).
